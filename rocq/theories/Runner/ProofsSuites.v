(** Lemmas for C52: the tree of suites as made by the runner. *)
From stdpp Require Import list list_numbers.
From Verif.Base Require Import Outcome ListLemmas.
From Verif.Text Require Import Model.
From Verif.Graph Require Import Model ModelWeighted ModelTree Spec SpecWeighted SpecTree ProofsTree ProofsPrune ProofsSpan ProofsForest.
From Verif.Suite Require Import Model Spec Proofs ProofsFilter ProofsFaults.
From Verif.Runner Require Import Model ModelSuites Spec.

Section suites.
  Context {T D K : Type} (rt : D) (init_suite : suite T -> D) (init_test : T -> D) (m : K -> T -> bool).
  Notation good := (ProofsForest.good (W := unit) (V := snode T D) Directed Forward).
  Implicit Types g : wgraph unit (snode T D).
  Notation ts := (fun s => SNode (init_suite s) None).
  Notation ti := (fun t => SNode (init_test t) (Some t)).

  (** Only suites have children. *)
  Inductive tests_are_leaves : itree (snode T D) -> Prop :=
    | tal_node v cs : (cs <> [] -> opt_test v = None) -> Forall tests_are_leaves cs -> tests_are_leaves (INode v cs).

  Definition suite_in (l : list (snode T D)) (i : nat) : Prop := exists v, l !! i = Some v /\ opt_test v = None.

  Lemma parents_are_suites t : tests_are_leaves t -> forall par base j q, tree_parents par base t !! j = Some (Some q) ->
    par = Some q \/ (base <= q /\ suite_in (preorder t) (q - base)).
  Proof.
    induction t as [v cs IH] using itree_rect'. intros Ht par base j q. rewrite tree_parents_node.
    inversion Ht as [? ? Hv Hcs]; subst. destruct j as [|j]; [cbn; intros [= <-]; by left|]. cbn [lookup list_lookup preorder]. intros Hj. right.
    assert (H : forall b, child_parents base b cs !! j = Some (Some q) -> (cs <> [] /\ q = base) \/
      (b <= q /\ suite_in (concat (map preorder cs)) (q - b))).
    { clear Hj Hv Ht. revert j. induction IH as [|c cs Hc _ IHcs]; intros j b Hj; [done|]. cbn [child_parents] in Hj.
      apply Forall_cons in Hcs as [Hc' Hcs'].
      apply lookup_app_Some in Hj as [Hj|[Hl Hj]].
      - destruct (Hc Hc' _ _ _ _ Hj) as [[= ->]|[Hb (v' & Hv' & Ho)]]; [by left|]. right. split; [done|]. exists v'. cbn [map concat].
        split; [|done]. by apply lookup_app_l_Some.
      - destruct (IHcs Hcs' _ _ Hj) as [[_ ->]|[Hb (v' & Hv' & Ho)]]; [by left|]. right. rewrite tree_parents_length in *. split; [lia|].
        exists v'. cbn [map concat]. split; [|done]. rewrite lookup_app_r by lia. rewrite <- Hv'. f_equal. lia. }
    destruct (H _ Hj) as [[Hne ->]|[Hb (v' & Hv' & Ho)]].
    - split; [done|]. exists v. rewrite Nat.sub_diag. split; [done|by apply Hv].
    - split; [lia|]. exists v'. split; [|done]. replace (q - base) with (S (q - S base)) by lia. done.
  Qed.

  Lemma wanted_tree_none want s : forall prev, wanted_tree want ts ti prev s = None -> wanted_items want (items_of prev s) = [].
  Proof.
    induction s as [k items|k subs IH] using suite_ind'; intros p; rewrite wanted_tree_eq; cbn [children_of_suite items_of].
    - rewrite wanted_items_same. by destruct (List.filter _ items).
    - destruct (omap _ subs) as [|] eqn:E; [|done]. intros _. revert E. induction IH as [|s subs Hs _ IHs]; [done|].
      cbn [omap list_omap map concat]. rewrite wanted_items_app.
      destruct (wanted_tree want ts ti (p ++ [k]) s) eqn:Es; [done|]. intros E. rewrite (Hs _ Es). cbn. by apply IHs.
  Qed.

  Lemma wanted_tree_leaves want s : forall prev t, wanted_tree want ts ti prev s = Some t ->
    tests_are_leaves t /\ omap opt_test (preorder t) = wanted_items want (items_of prev s)
    /\ Forall (fun v => opt_test v = None -> exists s', summary v = init_suite s') (preorder t).
  Proof.
    induction s as [n items|n subs IH] using suite_ind'; intros prev t; rewrite wanted_tree_eq; cbn [children_of_suite items_of].
    - rewrite wanted_items_same. set (l := List.filter _ items). destruct (map _ l) as [|c cs] eqn:E; [done|]. intros [= <-]. rewrite <- E.
      split; [|split].
      + constructor; [done|]. apply Forall_forall. intros x Hx. apply elem_of_list_fmap in Hx as (i & -> & _). constructor; [done|constructor].
      + cbn [preorder omap list_omap opt_test]. clear. induction l as [|i l IH]; [done|]. cbn. f_equal. exact IH.
      + cbn [preorder]. constructor; [by eexists|]. clear. induction l as [|i l IH]; [constructor|]. cbn. constructor; [done|exact IH].
    - destruct (omap _ subs) as [|c cs] eqn:E; [done|]. intros [= <-]. rewrite <- E. clear c cs E.
      set (cs := omap _ subs).
      assert (H : Forall tests_are_leaves cs /\ omap opt_test (concat (map preorder cs)) = wanted_items want (concat (map (items_of (prev ++ [n])) subs))
         /\ Forall (fun v => opt_test v = None -> exists s', summary v = init_suite s') (concat (map preorder cs))).
      { unfold cs. clear cs. induction IH as [|s subs Hs _ IHs]; [split; [constructor|split; [done|constructor]]|]. destruct IHs as (H1 & H2 & H3). cbn [omap list_omap map concat].
        rewrite wanted_items_app. destruct (wanted_tree want ts ti (prev ++ [n]) s) as [t|] eqn:Et.
        - destruct (Hs _ _ Et) as (H4 & H5 & H6). cbn [map concat]. split; [by constructor|]. split.
          + rewrite omap_app, H5. f_equal. exact H2.
          + apply Forall_app. split; [exact H6|exact H3].
        - rewrite (wanted_tree_none want s _ Et). done. }
      destruct H as (H1 & H2 & H3). split; [|split].
      + by constructor.
      + cbn [preorder omap list_omap opt_test]. exact H2.
      + cbn [preorder]. constructor; [by eexists|done].
  Qed.

  (** The invariant: a tree of suites in which parents come before their children, whose suites are new. *)
  Definition inv g (ps : list (option nat)) : Prop :=
    good g ps /\ suite_tree g ps /\
    Forall (fun v => opt_test v = None -> summary v = rt \/ exists s, summary v = init_suite s) (weights g).

  Lemma anc_of_ordered ps : ordered ps -> (forall n, 0 < n -> n < length ps -> ps !! n <> Some None) -> forall n, n < length ps -> anc ps n 0.
  Proof.
    intros Ho Hs n. induction (lt_wf n) as [n _ IH]. intros Hn. destruct (decide (n = 0)) as [->|H0]; [by apply anc_refl|].
    destruct (lookup_in_range ps n Hn) as [[p|] Hp]; [|by destruct (Hs n ltac:(lia) Hn)].
    pose proof (Ho n p Hp). eapply anc_up; [exact Hp|]. apply IH; lia.
  Qed.

  Lemma new_tree : inv (WGraph [[]] [SNode rt None]) [None].
  Proof.
    destruct (one_node_good (SNode rt None : snode T D)) as (H1 & H2 & H3). split; [by split|]. split; [|].
    - split; [done|done|done| |done|].
      + intros n Hn. cbn in Hn. assert (n = 0) as -> by lia. apply anc_refl. cbn. lia.
      + intros n t Ht. unfold test_at in Ht. by destruct n as [|[|n]].
    - constructor; [|constructor]. intros _. by left.
  Qed.

  Lemma extended g ps t : inv g ps -> tests_are_leaves t ->
    Forall (fun v => opt_test v = None -> exists s', summary v = init_suite s') (preorder t) -> forall g',
    good g' (ps ++ tree_parents (Some 0) (length ps) t) -> weights g' = weights g ++ preorder t ->
    inv g' (ps ++ tree_parents (Some 0) (length ps) t).
  Proof.
    intros (Hg & [Hc Hr H0 Hall Hsuite Hleaf] & Hnew) Ht Hpre g' Hg' Hw. pose proof Hg' as [Hc' Hr' _ Ho'].
    assert (Hlw : length (weights g) = length ps) by (destruct Hc as [_ Hc]; destruct Hr as [Hr _]; unfold order in Hc; lia).
    assert (H0l : 0 < length ps) by by eapply lookup_lt_Some.
    split; [done|]. split.
    - split; [done|done| | | |].
      + by rewrite lookup_app_l.
      + apply anc_of_ordered; [done|]. intros n Hn0 Hn. destruct (decide (n < length ps)) as [Hl|Hl].
        * rewrite lookup_app_l by done. intros Hps. specialize (Hall n Hl). inversion Hall; subst; [lia|congruence].
        * rewrite lookup_app_r by lia. apply child_parents_some.
      + unfold test_at. rewrite Hw, lookup_app_l by lia. exact Hsuite.
      + intros n t' Hn. destruct (row (edges g') n) as [|e es] eqn:Er; [done|]. exfalso.
        assert (He : e ∈ row (edges g') n) by (rewrite Er; left).
        pose proof (rep_parent (edges g') _ n e Hr' He) as Hp. apply lookup_app_Some in Hp as [Hp|[Hl Hp]].
        * assert (Hnl : n < length ps). { destruct (Hg) as [_ _ _ Ho]. specialize (Ho _ _ Hp). apply lookup_lt_Some in Hp. lia. }
          unfold test_at in Hn. rewrite Hw, lookup_app_l in Hn by lia.
          destruct (rep_edge (edges g) ps n (tgt e) Hr Hnl Hp) as (e' & He' & _). rewrite (Hleaf n t' Hn) in He'. by apply elem_of_nil in He'.
        * destruct (parents_are_suites t Ht _ _ _ _ Hp) as [[= <-]|[Hb (v & Hv & Ho)]].
          -- unfold test_at in Hn, Hsuite. rewrite Hw, lookup_app_l in Hn by lia. congruence.
          -- unfold test_at in Hn. rewrite Hw, lookup_app_r, Hlw, Hv in Hn by lia. cbn in Hn. congruence.
    - rewrite Hw. apply Forall_app. split; [done|]. eapply Forall_impl; [exact Hpre|]. intros v H Hv. right. by apply H.
  Qed.

  Definition start_ok g ps : Prop := (g = WGraph [] [] /\ ps = []) \/ inv g ps.

  Lemma add_suite_ok ss is s f g ps : keys f = (ss, is) -> start_ok g ps ->
    exists f' g' ps', add_suite rt init_suite init_test m s f g = (f', Ok (Done g')) /\ keys f' = (ss, is) /\ inv g' ps'
      /\ tests_of (weights g') = tests_of (weights g) ++ wanted_items (want_bool m ss is) (items_of [] s).
  Proof.
    intros Hf Hst. unfold add_suite.
    assert (H1 : exists g1 ps1, (if order (edges g) =? 0 then (add_node_to_tree Directed Forward tt 0 (SNode rt None) g).2 else Ok (Done g))
        = Ok (Done g1) /\ inv g1 ps1 /\ tests_of (weights g1) = tests_of (weights g)).
    { destruct Hst as [[-> ->]|Hi].
      - exists (WGraph [[]] [SNode rt None]), [None]. split; [by vm_compute|]. split; [apply new_tree|done].
      - exists g, ps. assert (order (edges g) =? 0 = false) as ->; [|done]. apply Nat.eqb_neq. destruct Hi as (_ & [_ [Hl _] H0 _ _ _] & _).
        unfold order. apply lookup_lt_Some in H0. lia. }
    destruct H1 as (g1 & ps1 & -> & Hi & Ht1). cbn [fbind].
    destruct (extract_tree_into_ok (V := snode T D) tt (granular m) (want_bool m ss is) (fun f => keys f = (ss, is))) with
      (ts := fun s => SNode (init_suite s) (@None T)) (ti := fun t => SNode (init_test t) (Some t)) (s := s) (f := f) (g := g1) (ps := ps1) (p := 0)
      as (g' & H1 & H2); [intros; by apply granular_inv|done|apply Hi| |].
    { destruct Hi as (_ & [_ _ H0 _ _ _] & _). by eapply lookup_lt_Some. }
    assert (Hk : keys (asked (granular m) (items_of [] s) f) = (ss, is)) by by rewrite asked_keys.
    rewrite H1. destruct (wanted_tree _ _ _ _ s) as [t|] eqn:Et.
    - destruct H2 as [Hg' Hw']. destruct (wanted_tree_leaves _ s [] t Et) as (Hl & Hi' & Hpre).
      eexists _, g', _. split; [done|]. split; [done|]. split; [exact (extended g1 ps1 t Hi Hl Hpre g' Hg' Hw')|].
      unfold tests_of in *. by rewrite Hw', omap_app, Ht1, Hi'.
    - subst g'. eexists _, g1, ps1. split; [done|]. split; [done|]. split; [done|]. rewrite (wanted_tree_none _ s [] Et), app_nil_r. done.
  Qed.

  Lemma add_suites_ok ss is l : forall f g ps, keys f = (ss, is) -> start_ok g ps -> l <> [] ->
    exists f' g' ps', add_suites rt init_suite init_test m l f g = (f', Ok (Done g')) /\ keys f' = (ss, is) /\ inv g' ps'
      /\ tests_of (weights g') = tests_of (weights g) ++ concat (map (fun s => wanted_items (want_bool m ss is) (items_of [] s)) l).
  Proof.
    induction l as [|s l IH]; intros f g ps Hf Hst Hne; [done|]. cbn [add_suites].
    destruct (add_suite_ok ss is s f g ps Hf Hst) as (f1 & g1 & ps1 & -> & Hf1 & Hi1 & Ht1). cbn [fbind].
    destruct l as [|s' l].
    - exists f1, g1, ps1. cbn. rewrite app_nil_r. done.
    - destruct (IH f1 g1 ps1 Hf1 (or_intror Hi1) ltac:(done)) as (f2 & g2 & ps2 & -> & Hf2 & Hi2 & Ht2).
      exists f2, g2, ps2. do 3 (split; [done|]). rewrite Ht2, Ht1. cbn [map concat]. by rewrite <- app_assoc.
  Qed.

  Lemma add_suites_all {M} (e : M) (mu : D -> M) : mu rt = e -> (forall s, mu (init_suite s) = e) -> forall l suites items, l <> [] ->
    exists want f g ps, (forall i ns, want i ns = true <-> wanted m suites items i ns) /\
      add_suites rt init_suite init_test m l (make_filter suites items) (WGraph [] []) = (f, Ok (Done g)) /\ suite_tree g ps
      /\ suites_empty e mu (weights g)
      /\ tests_of (weights g) = map fst (List.filter (fun x => want x.1 x.2) (concat (map (items_of []) l))).
  Proof.
    intros Hrt Hinit l ss is Hne.
    destruct (add_suites_ok ss is l (make_filter ss is) (WGraph [] []) [] (make_keys ss is) (or_introl (conj eq_refl eq_refl)) Hne)
      as (f & g & ps & H1 & _ & (_ & Hst & Hnew) & Ht).
    exists (want_bool m ss is), f, g, ps. split; [intros; apply want_bool_wanted|]. split; [done|]. split; [done|]. split.
    - intros n v Hv Ho. rewrite Forall_lookup in Hnew. destruct (Hnew n v Hv Ho) as [->|[s ->]]; [done|apply Hinit].
    - rewrite Ht. cbn. clear. induction l as [|s l IH]; [done|]. cbn. rewrite List.filter_app, map_app. f_equal. exact IH.
  Qed.
End suites.
