From stdpp Require Import list list_numbers.
From Verif.Base Require Import Outcome ListLemmas.
From Verif.Graph Require Import Model ModelWeighted Spec SpecWeighted ModelTree SpecTree ProofsBase ProofsCount ProofsTop ProofsPrune ProofsGrow.
Local Open Scope res_scope.

Lemma itree_rect' {V} (P : itree V -> Prop) :
  (forall v cs, Forall P cs -> P (INode v cs)) -> forall t, P t.
Proof.
  intros H. fix IH 1. intros [v cs]. apply H. induction cs as [|c cs IHc]; constructor; [apply IH|exact IHc].
Qed.

Section forest.
  Context {W V : Type} `{!EqDecision W}.
  Context (fl : flavour) (d : direction) (w : W) (Hfl : tree_flavour fl d).
  Implicit Types g : wgraph W V.
  Implicit Types ts cs : list (itree V).
  Implicit Types t : itree V.

  Fixpoint child_parents (base b : nat) ts : list (option nat) :=
    match ts with
    | [] => []
    | t :: ts => let q := tree_parents (Some base) b t in q ++ child_parents base (b + length q) ts
    end.

  Lemma tree_parents_node par base v cs : tree_parents par base (INode v cs) = par :: child_parents base (S base) cs.
  Proof.
    cbn [tree_parents]. f_equal. generalize (S base) as b. induction cs as [|c cs IH]; intros b; [done|]. cbn. by rewrite IH.
  Qed.

  Lemma tree_parents_length t : forall par base, length (tree_parents par base t) = length (preorder t).
  Proof.
    induction t as [v cs IH] using itree_rect'. intros par base. rewrite tree_parents_node. cbn [length preorder]. f_equal.
    generalize (S base) as b. induction IH as [|c cs Hc _ IHc]; intros b; [done|]. cbn. by rewrite !app_length, Hc, IHc.
  Qed.

  Record good g (ps : list (option nat)) : Prop := {
    gd_consistent : consistent fl g;
    gd_rep : tree_rep d (edges g) ps;
    gd_first : d = Symmetric -> parent_first (edges g) ps;
    gd_ordered : ordered ps
  }.

  Lemma grow_end ps par : ordered ps -> grow ps (length ps) par = ps ++ [par].
  Proof.
    intros Ho. unfold grow. rewrite drop_all, take_ge by done. cbn. f_equal. apply list_eq. intros i. rewrite list_lookup_fmap.
    destruct (ps !! i) as [[p|]|] eqn:E; [|done..]. cbn. specialize (Ho i p E). apply lookup_lt_Some in E. unfold up. by rewrite decide_False by lia.
  Qed.

  Lemma add_child g ps p v :
    good g ps -> p < length ps ->
    exists g', add_node_to_tree fl d w p v g = (length ps, Ok (Done g')) /\ good g' (ps ++ [Some p]) /\ weights g' = weights g ++ [v].
  Proof.
    intros [H1 H2 H3 H4] Hp. unfold add_node_to_tree. assert (HN : order (edges g) = length ps) by apply H2. rewrite HN.
    destruct (insert_tree fl d w g ps (length ps) p v Hfl H1 H2) as (g' & Hi & Hc & Hr & Hf & Hw); [right; lia|].
    rewrite Nat.min_id in *. assert (Hreq : requested ps p = Some p) by (destruct ps; [cbn in Hp; lia|done]).
    rewrite Hreq in *. rewrite grow_end in * by done. exists g'. split; [done|]. split.
    - split; [done|done|intros ->; by apply Hf, H3|]. rewrite <- grow_end, <- Hreq by done. apply grow_ordered; [done|lia|by right].
    - rewrite Hw, take_ge, drop_ge; [done| |]; destruct H1 as [_ ->]; lia.
  Qed.

  Lemma add_root g ps v :
    good g ps ->
    exists g', add_node_w false false v g = Done g' /\ good g' (ps ++ [None]) /\ weights g' = weights g ++ [v].
  Proof.
    intros [[Hok Hw] H2 H3 H4]. unfold add_node_w, insert_node_w. assert (HN : order (edges g) = length ps) by apply H2.
    rewrite HN, Nat.min_id. eexists. split; [done|].
    destruct (insert_node_all W _ fl (edges g) (length ps) Hok) as [Hi Hok1]. rewrite HN, Nat.min_id in Hi. destruct Hi as (Hl1 & Hrn & Hro).
    set (h1 := insert_node (length ps) (edges g)) in *. assert (Hlg : length (edges g) = length ps) by done.
    assert (Hrow : forall i, i < length ps -> map tgt (row h1 i) = map tgt (row (edges g) i)).
    { intros i Hi. specialize (Hro i ltac:(lia)). unfold up in Hro at 1. rewrite decide_False in Hro by lia. rewrite Hro, map_map.
      apply map_ext_in. intros e He. cbn. unfold up. rewrite decide_False; [done|]. assert (Hlt : tgt e < length (edges g)); [|lia].
      eapply (graph_ok_in_range fl); [exact Hok|]. by apply elem_of_list_In. }
    assert (Hlk : forall i, i < length ps -> (ps ++ [None]) !! i = ps !! i) by (intros i Hi; by apply lookup_app_l).
    assert (Hlast : (ps ++ [None]) !! length ps = Some None) by (by rewrite lookup_app_r, Nat.sub_diag).
    assert (Hsome : forall c p, (ps ++ [None]) !! c = Some (Some p) <-> ps !! c = Some (Some p)).
    { intros c p. destruct (decide (c < length ps)) as [Hlt|Hge]; [by rewrite Hlk|]. split.
      - intros Hc. pose proof (lookup_lt_Some _ _ _ Hc) as Hl. rewrite app_length in Hl. cbn in Hl. assert (c = length ps) as -> by lia. congruence.
      - intros Hc. apply lookup_lt_Some in Hc. lia. }
    assert (Hpar : forall i, parent_of (ps ++ [None]) i = parent_of ps i).
    { intros i. unfold parent_of. destruct (ps !! i) as [[p|]|] eqn:E.
      - by apply Hsome in E as ->.
      - rewrite Hlk, E; [done|by apply lookup_lt_Some in E].
      - destruct ((ps ++ [None]) !! i) as [[p|]|] eqn:E2; [|done..]. apply Hsome in E2. congruence. }
    assert (Hchi : forall i, children_of (ps ++ [None]) i ≡ₚ children_of ps i).
    { intros i. apply NoDup_Permutation; [apply NoDup_filter, NoDup_seq..|]. intros c. by rewrite !children_elem, Hsome. }
    split.
    - split; cbn [edges].
      + split; [done|]. cbn [weights edges]. unfold order. rewrite Hl1, app_length. cbn. rewrite take_length, drop_length. unfold order in *. lia.
      + split; [rewrite app_length; cbn; lia|]. intros i Hi. rewrite app_length in Hi. cbn in Hi. destruct (decide (i = length ps)) as [->|Hne].
        * rewrite Hrn. assert (Hp0 : parent_of (ps ++ [None]) (length ps) = []) by (unfold parent_of; by rewrite Hlast). rewrite Hp0.
          assert (Hc0 : children_of (ps ++ [None]) (length ps) = []).
          { apply Permutation_nil_r. rewrite Hchi. destruct (children_of ps (length ps)) as [|c l] eqn:E; [done|]. exfalso.
            assert (Hc : ps !! c = Some (Some (length ps))) by (apply children_elem; rewrite E; left). pose proof (H4 _ _ Hc). apply lookup_lt_Some in Hc. lia. }
          rewrite Hc0. by destruct d.
        * rewrite Hrow by lia. rewrite (proj2 H2 i) by lia. rewrite Hpar. destruct d; by rewrite ?Hchi.
      + intros -> c p Hc%Hsome. rewrite Hrow by by apply lookup_lt_Some in Hc. by apply H3.
      + intros c p Hc%Hsome. by apply H4.
    - cbn [weights]. rewrite take_ge, drop_ge; [done|lia..].
  Qed.

  Lemma build_tree_node root v cs g :
    build_tree fl d w root (INode v cs) g =
      let p := (if order (edges g) <=? root then (order (edges g), Ok (add_node_w false false v g)) else (root, Ok (Done g))) in
      obind p.2 ((fix go (l : list (itree V)) g : res (outcome W V) :=
              match l with
              | [] => Ok (Done g)
              | INode cv _ as child :: l =>
                  let q := add_node_to_tree fl d w p.1 cv g in
                  obind q.2 (fun g => obind (build_tree fl d w q.1 child g) (go l))
              end) cs).
  Proof. done. Qed.

  Definition below (t : itree V) : Prop := forall g ps p,
    good g ps -> p < length ps -> match t with INode v _ =>
      let q := add_node_to_tree fl d w p v g in
      exists g', obind q.2 (build_tree fl d w q.1 t) = Ok (Done g') /\ good g' (ps ++ tree_parents (Some p) (length ps) t)
        /\ weights g' = weights g ++ preorder t
    end.

  Lemma build_children p cs : Forall below cs -> forall g ps, good g ps -> p < length ps ->
    exists g', (fix go (l : list (itree V)) g : res (outcome W V) :=
              match l with
              | [] => Ok (Done g)
              | INode cv _ as child :: l =>
                  let q := add_node_to_tree fl d w p cv g in
                  obind q.2 (fun g => obind (build_tree fl d w q.1 child g) (go l))
              end) cs g = Ok (Done g')
      /\ good g' (ps ++ child_parents p (length ps) cs) /\ weights g' = weights g ++ concat (map preorder cs).
  Proof.
    induction 1 as [|c cs Hc _ IH]; intros g ps Hg Hp.
    { exists g. split; [done|]. cbn. rewrite !app_nil_r. done. }
    pose proof (Hc g ps p Hg Hp) as Hc1. destruct c as [cv ccs]. cbn zeta in Hc1. destruct Hc1 as (g1 & H1 & Hg1 & Hw1).
    destruct (IH g1 _ Hg1) as (g2 & H2 & Hg2 & Hw2); [rewrite app_length; lia|].
    exists g2. split; [|split].
    - destruct (add_node_to_tree fl d w p cv g) as [m [[ga|e ga| |]|e| |]]; cbn [fst snd obind] in *; try done. rewrite H1. cbn [obind]. exact H2.
    - cbn [child_parents]. rewrite app_length in Hg2. by rewrite app_assoc.
    - rewrite Hw2, Hw1. cbn [map concat]. by rewrite app_assoc.
  Qed.

  Lemma all_below t : below t.
  Proof.
    induction t as [v cs IH] using itree_rect'. intros g ps p Hg Hp. cbn zeta.
    destruct (add_child g ps p v Hg Hp) as (g1 & H1 & Hg1 & Hw1). rewrite H1. cbn [fst snd obind]. rewrite build_tree_node.
    assert (HN : order (edges g1) = S (length ps)).
    { assert (Hl : order (edges g1) = length (ps ++ [Some p])) by apply (gd_rep _ _ Hg1). rewrite Hl, app_length. cbn. lia. }
    rewrite HN. destruct (Nat.leb_spec (S (length ps)) (length ps)); [lia|]. cbn zeta. cbn [fst snd obind].
    destruct (build_children (length ps) cs IH g1 _ Hg1) as (g2 & H2 & Hg2 & Hw2); [rewrite app_length; cbn; lia|].
    exists g2. split; [exact H2|]. split.
    - rewrite tree_parents_node. rewrite app_length in Hg2. cbn in Hg2. rewrite Nat.add_comm in Hg2. cbn [plus] in Hg2.
      rewrite <- app_assoc in Hg2. exact Hg2.
    - rewrite Hw2, Hw1, <- app_assoc. done.
  Qed.

  Lemma build_tree_ok t g ps :
    good g ps ->
    exists g', build_tree fl d w (order (edges g)) t g = Ok (Done g') /\ good g' (ps ++ tree_parents None (length ps) t)
      /\ weights g' = weights g ++ preorder t.
  Proof.
    intros Hg. destruct t as [v cs]. rewrite build_tree_node. rewrite Nat.leb_refl. cbn zeta. cbn [fst snd].
    assert (HN : order (edges g) = length ps) by apply (gd_rep _ _ Hg). rewrite HN.
    destruct (add_root g ps v Hg) as (g1 & H1 & Hg1 & Hw1). rewrite H1. cbn [obind].
    destruct (build_children (length ps) cs) with (g := g1) (ps := ps ++ [None : option nat]) as (g2 & H2 & Hg2 & Hw2).
    - apply Forall_forall. intros; apply all_below.
    - done.
    - rewrite app_length; cbn; lia.
    - exists g2. split; [exact H2|]. split.
      + rewrite tree_parents_node. rewrite app_length in Hg2. cbn in Hg2. rewrite Nat.add_comm in Hg2. cbn [plus] in Hg2.
        rewrite <- app_assoc in Hg2. exact Hg2.
      + rewrite Hw2, Hw1, <- app_assoc. done.
  Qed.

  Lemma build_forest_ok ts : forall g ps,
    good g ps ->
    exists g', build_forest fl d w ts g = Ok (Done g') /\ good g' (ps ++ forest_parents (length ps) ts)
      /\ weights g' = weights g ++ concat (map preorder ts).
  Proof.
    induction ts as [|t ts IH]; intros g ps Hg; cbn [build_forest forest_parents].
    { exists g. cbn. rewrite !app_nil_r. done. }
    destruct (build_tree_ok t g ps Hg) as (g1 & -> & Hg1 & Hw1). cbn [obind]. destruct (IH g1 _ Hg1) as (g2 & H2 & Hg2 & Hw2).
    exists g2. split; [done|]. split.
    - rewrite app_length, <- app_assoc in Hg2. exact Hg2.
    - cbn [map concat]. by rewrite Hw2, Hw1, <- app_assoc.
  Qed.

  Lemma empty_good : good (WGraph [] []) [].
  Proof.
    split; [split; [apply empty_ok|done]|split; [done|intros n Hn; cbn in Hn; lia]|by intros ? ?|by intros ?].
  Qed.

  Lemma ordered_one_root ps : ordered (None :: ps) -> (forall n, ps !! n <> Some None) -> tree_shaped (None :: ps).
  Proof.
    intros Ho Hnone. right. exists 0. split; [done|]. intros n. induction n as [n IH] using lt_wf_ind. intros Hn. destruct n as [|n]; [by apply anc_refl|].
    cbn in Hn. destruct (lookup_in_range ps n) as [[p|] Hp]; [lia| |by apply Hnone in Hp]. pose proof (Ho (S n) p Hp) as Hlt.
    eapply anc_up; [exact Hp|]. apply IH; cbn; lia.
  Qed.

  Lemma child_parents_some t : forall par base n, tree_parents (Some par) base t !! n <> Some None.
  Proof.
    induction t as [v cs IH] using itree_rect'. intros par base n. rewrite tree_parents_node. destruct n as [|n]; [done|]. cbn.
    generalize (S base) as b. revert n. induction IH as [|c cs Hc _ IHc]; intros n b; [done|]. cbn. intros H.
    apply lookup_app_Some in H as [H|[_ H]]; [by apply Hc in H|by apply IHc in H].
  Qed.

  Lemma make_tree_ok t :
    exists g', make_tree fl d w t = Ok (Done g') /\ good g' (tree_parents None 0 t) /\ tree_shaped (tree_parents None 0 t)
      /\ weights g' = preorder t.
  Proof.
    destruct (build_forest_ok [t] _ _ empty_good) as (g' & H1 & H2 & H3). exists g'. split; [exact H1|]. cbn in H2, H3. rewrite app_nil_r in H2, H3.
    split; [done|]. split; [|done]. pose proof (gd_ordered _ _ H2) as Ho. destruct t as [v cs]. rewrite tree_parents_node in *.
    apply ordered_one_root; [done|]. clear. generalize 1 as b. induction cs as [|c cs IHc]; intros b n H; [done|]. cbn in H.
    apply lookup_app_Some in H as [H|[_ H]]; [by apply child_parents_some in H|by eapply IHc].
  Qed.
End forest.

Lemma forest_ok {W V} `{!EqDecision W} fl d (w : W) : tree_flavour fl d -> forall ts : list (itree V),
  exists g', build_forest fl d w ts (WGraph [] []) = Ok (Done g')
    /\ consistent fl g' /\ tree_rep d (edges g') (forest_parents 0 ts) /\ ordered (forest_parents 0 ts)
    /\ (d = Symmetric -> parent_first (edges g') (forest_parents 0 ts))
    /\ weights g' = concat (map preorder ts).
Proof.
  intros Hfl ts. destruct (build_forest_ok fl d w Hfl ts _ _ (empty_good fl d)) as (g' & H1 & [] & H3). by exists g'.
Qed.

Lemma make_tree_all {W V} `{!EqDecision W} fl d (w : W) : tree_flavour fl d -> forall t : itree V,
  exists g', make_tree fl d w t = Ok (Done g')
    /\ consistent fl g' /\ tree_rep d (edges g') (tree_parents None 0 t) /\ tree_shaped (tree_parents None 0 t)
    /\ ordered (tree_parents None 0 t) /\ (d = Symmetric -> parent_first (edges g') (tree_parents None 0 t))
    /\ weights g' = preorder t.
Proof. intros Hfl t. destruct (make_tree_ok fl d w Hfl t) as (g' & H1 & [] & H3 & H4). by exists g'. Qed.
