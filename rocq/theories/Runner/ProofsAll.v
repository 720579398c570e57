(** Lemmas for C52: sorting, resetting and repeating. *)
From stdpp Require Import list list_numbers.
From Verif.Base Require Import Outcome Order ListLemmas.
From Verif.Graph Require Import Model ModelWeighted ModelTree ModelTraverse ModelSort Spec SpecWeighted SpecTree SpecTraverse SpecSpan
  SpecSort ProofsTraverseEdges ProofsTraverseDfs ProofsTree ProofsPrune ProofsSpan ProofsSort.
From Verif.Runner Require Import Model Spec Proofs ProofsRun.

Section all.
  Context {T D : Type} (parallelizable : T -> bool).
  Implicit Types l : list (step T D).
  Implicit Types g : wgraph unit (snode T D).
  Implicit Types ws : list (snode T D).

  (** *** Renumbering *)

  Lemma surjective_below (f : nat -> nat) n : Inj (=) (=) f -> (forall a, f a < n <-> a < n) -> forall i, i < n -> exists a, a < n /\ f a = i.
  Proof.
    intros Hinj Hf i Hi. assert (Hp : map f (seq 0 n) ≡ₚ seq 0 n).
    { apply submseteq_Permutation_length_eq; [by rewrite map_length|]. apply NoDup_submseteq.
      - apply (NoDup_fmap_2 f), NoDup_seq.
      - intros x Hx. apply elem_of_list_fmap in Hx as (a & -> & Ha). apply elem_of_seq in Ha. apply elem_of_seq.
        assert (f a < n) by (apply Hf; lia). lia. }
    assert (Hi' : i ∈ map f (seq 0 n)) by (rewrite Hp; apply elem_of_seq; lia).
    apply elem_of_list_fmap in Hi' as (a & -> & Ha). apply elem_of_seq in Ha. exists a. split; [lia|done].
  Qed.

  Definition moved (f : nat -> nat) (ps : list (option nat)) : list (option nat) :=
    map (fun i => match List.find (fun a => f a =? i) (seq 0 (length ps)) with
                  | Some a => f <$> (ps !! a ≫= fun o => o)
                  | None => None
                  end) (seq 0 (length ps)).

  Lemma moved_length f ps : length (moved f ps) = length ps.
  Proof. unfold moved. by rewrite map_length, seq_length. Qed.

  Lemma moved_at f ps a : Inj (=) (=) f -> (forall a, f a < length ps <-> a < length ps) ->
    moved f ps !! f a = (fun o => f <$> o) <$> ps !! a.
  Proof.
    intros Hinj Hf. destruct (decide (a < length ps)) as [Ha|Ha].
    - unfold moved. rewrite list_lookup_fmap, lookup_seq_lt by by apply Hf. cbn [fmap option_fmap option_map].
      destruct (lookup_in_range ps a Ha) as [o Ho]. rewrite Ho. cbn [fmap option_fmap option_map]. f_equal.
      destruct (List.find _ _) as [b|] eqn:E.
      + apply find_some in E as [_ E]. apply Nat.eqb_eq in E. apply Hinj in E. subst b. by rewrite Ho.
      + exfalso. pose proof (find_none _ _ E a) as H. cbn in H. rewrite Nat.eqb_refl in H. discriminate H.
        apply elem_of_list_In, elem_of_seq. lia.
    - rewrite (lookup_ge_None_2 ps a) by lia. cbn. apply lookup_ge_None_2. rewrite moved_length. specialize (Hf a). lia.
  Qed.

  Lemma suite_tree_renumbered f g g' ps : suite_tree g ps -> renumbered f g g' -> consistent Directed g' -> f 0 = 0 ->
    suite_tree g' (moved f ps).
  Proof.
    intros [[Hin Hlen] Hrep Hroot Hall Hsuite Hleaf] (Hinj & Hf & Hord & Hrow & Hw) Hcons Hf0.
    pose proof (proj1 Hrep) as Hl. unfold order in *. rewrite Hl in Hf.
    assert (Hta : forall a, test_at (weights g') (f a) = test_at (weights g) a) by (intros a; unfold test_at; by rewrite Hw).
    assert (Hmem : forall c q, moved f ps !! f c = Some (Some (f q)) <-> ps !! c = Some (Some q)).
    { intros c q. rewrite moved_at by done. destruct (ps !! c) as [[p|]|]; cbn; [|done|done].
      split; [|naive_solver]. intros H. injection H as H. apply Hinj in H. by subst. }
    split.
    - done.
    - split; [rewrite moved_length; lia|]. rewrite moved_length. intros i Hi.
      destruct (surjective_below f (length ps) Hinj Hf i Hi) as (a & Ha & <-). rewrite Hrow, map_map.
      cbn [tgt]. rewrite <- (map_map tgt f). rewrite (proj2 Hrep a Ha). apply NoDup_Permutation.
      + apply (NoDup_fmap_2 f), NoDup_filter, NoDup_seq.
      + apply NoDup_filter, NoDup_seq.
      + intros c. rewrite (children_elem (moved f ps) c (f a)). split.
        * intros Hc. apply elem_of_list_fmap in Hc as (c' & -> & Hc'). apply (children_elem ps c' a) in Hc'. by apply Hmem.
        * intros Hc. assert (Hcl : c < length ps) by (apply lookup_lt_Some in Hc; by rewrite moved_length in Hc).
          destruct (surjective_below f (length ps) Hinj Hf c Hcl) as (c' & Hc' & <-). apply elem_of_list_fmap. exists c'.
          split; [done|]. apply (children_elem ps c' a). by apply Hmem.
    - rewrite <- Hf0, moved_at by done. by rewrite Hroot.
    - rewrite moved_length. intros i Hi. destruct (surjective_below f (length ps) Hinj Hf i Hi) as (a & Ha & <-).
      rewrite <- Hf0. specialize (Hall a Ha). clear -Hall Hmem Hf. induction Hall as [n Hn|n p r Hp _ IH].
      + apply anc_refl. rewrite moved_length. by apply Hf.
      + eapply anc_up; [by apply Hmem|done].
    - rewrite <- Hf0, Hta. done.
    - intros i t Ht. assert (Hi : i < length ps).
      { unfold test_at in Ht. destruct (weights g' !! i) eqn:E; [|done]. apply lookup_lt_Some in E. destruct Hcons as [_ Hc].
        unfold order in Hc. lia. }
      destruct (surjective_below f (length ps) Hinj Hf i Hi) as (a & Ha & <-). rewrite Hta in Ht. rewrite Hrow.
      by rewrite (Hleaf a t Ht).
  Qed.

  (** *** Sorting *)

  Definition rank (wt : snode T D) : nat :=
    match opt_test wt with None => 0 | Some t => if parallelizable t then 2 else 1 end.
  Definition rank_less (x y : snode T D) : bool := rank x <? rank y.

  Lemma rank_strict_weak : strict_weak rank_less.
  Proof.
    destruct nat_ltb_strict_weak as [H1 H2 H3]. unfold rank_less. split; intros; eauto.
  Qed.

  Lemma tests_less_compares : compares rank_less (tests_less parallelizable).
  Proof.
    intros g i j x y Hx Hy. unfold tests_less, rget. rewrite Hx, Hy. cbn [rbind]. eexists. split; [done|].
    unfold rank_less, rank. destruct (opt_test x) as [t|], (opt_test y) as [u|]; try done.
    destruct (parallelizable t), (parallelizable u); done.
  Qed.

  Lemma sort_tests_ok g ps : suite_tree g ps ->
    exists g' f, sort_tests parallelizable g = Ok g' /\ renumbered f g g' /\ f 0 = 0 /\ suite_tree g' (moved f ps)
      /\ tests_sorted parallelizable (weights g').
  Proof.
    intros Hst. pose proof Hst as [Hcons Hrep Hroot Hall Hsuite Hleaf].
    destruct (sort_nodes_all Directed rank_less (tests_less parallelizable) 1 (order (edges g)) g rank_strict_weak tests_less_compares Hcons)
      as (g' & f & Hs & Hcons' & Hren & Hout & Hsorted); [|lia|].
    { destruct Hrep as [Hl _]. unfold order. apply lookup_lt_Some in Hroot. lia. }
    assert (Hf0 : f 0 = 0) by (apply Hout; left; lia).
    pose proof (suite_tree_renumbered f g g' ps Hst Hren Hcons' Hf0) as Hst'.
    exists g', f. split; [done|]. split; [done|]. split; [done|]. split; [done|].
    intros i j wi wj t Hij Hi Hj Ht. destruct i as [|i].
    { destruct Hst' as [_ _ _ _ Hs0 _]. unfold test_at in Hs0. rewrite Hi in Hs0. cbn in Hs0. congruence. }
    assert (Hjl : j < order (edges g)).
    { apply lookup_lt_Some in Hj. destruct Hcons' as [_ Hl']. destruct Hren as (_ & _ & Hord & _). lia. }
    specialize (Hsorted (S i) j wi wj ltac:(lia) Hij Hjl Hi Hj). unfold rank_less, rank in Hsorted. rewrite Ht in Hsorted.
    destruct (opt_test wj) as [u|]; [|by destruct (parallelizable t)]. exists u. split; [done|].
    intros Hp. rewrite Hp in Hsorted. by destruct (parallelizable u).
  Qed.

  Lemma sort_tests_good g ps : suite_tree g ps ->
    exists g' f ps', sort_tests parallelizable g = Ok g' /\ reordered f g g' /\ suite_tree g' ps' /\ tests_sorted parallelizable (weights g').
  Proof.
    intros Hst. destruct (sort_tests_ok g ps Hst) as (g' & f & H1 & (H2 & H3 & H4 & H5 & H6) & H7 & H8 & H9).
    exists g', f, (moved f ps). split; [done|]. split; [|done]. do 5 (split; [done|]). intros a. unfold test_at. by rewrite H6.
  Qed.

  Context (execute : option nat -> T -> D) (add : D -> D -> D) (clear : D -> D) (timed : D -> D).

  (** *** What depends on the tests only *)

  Definition same_tests ws ws' : Prop := map opt_test ws' = map opt_test ws.

  Lemma same_tests_at ws ws' n : same_tests ws ws' -> opt_test <$> ws' !! n = opt_test <$> ws !! n.
  Proof. intros H. apply (f_equal (fun os => os !! n)) in H. by rewrite !list_lookup_fmap in H. Qed.

  Lemma same_tests_test_at ws ws' n : same_tests ws ws' -> test_at ws' n = test_at ws n.
  Proof.
    intros H. apply (same_tests_at _ _ n) in H. unfold test_at. destruct (ws' !! n), (ws !! n); cbn in *; congruence.
  Qed.

  Lemma same_tests_length ws ws' : same_tests ws ws' -> length ws' = length ws.
  Proof. intros H. apply (f_equal length) in H. by rewrite !map_length in H. Qed.

  Lemma same_tests_tests ws ws' : same_tests ws ws' -> tests_of ws' = tests_of ws.
  Proof.
    unfold same_tests, tests_of. revert ws'. induction ws as [|w ws IH]; intros [|w' ws'] H; try done. cbn in H.
    injection H as Hw Hws. cbn. rewrite Hw. by rewrite (IH ws' Hws).
  Qed.

  Lemma same_tests_intro ws ws' : length ws' = length ws -> (forall n, n < length ws -> test_at ws' n = test_at ws n) -> same_tests ws ws'.
  Proof.
    intros Hl H. apply list_eq. intros n. rewrite !list_lookup_fmap. destruct (decide (n < length ws)) as [Hn|Hn].
    - destruct (lookup_in_range ws n Hn) as [x Hx]. destruct (lookup_in_range ws' n ltac:(lia)) as [y Hy].
      specialize (H n Hn). unfold test_at in H. rewrite Hx, Hy in *. cbn in *. by f_equal.
    - by rewrite !lookup_ge_None_2 by lia.
  Qed.

  Lemma same_tests_sorted ws ws' : same_tests ws ws' -> tests_sorted parallelizable ws -> tests_sorted parallelizable ws'.
  Proof.
    intros H Hs i j wi wj t Hij Hi Hj Ht. pose proof (same_tests_at _ _ i H) as Hi'. pose proof (same_tests_at _ _ j H) as Hj'.
    rewrite Hi in Hi'. rewrite Hj in Hj'. destruct (ws !! i) as [xi|] eqn:Ei; [|done]. destruct (ws !! j) as [xj|] eqn:Ej; [|done].
    cbn in *. injection Hi' as Hi'. injection Hj' as Hj'. rewrite Hj'. apply (Hs i j xi xj t Hij Ei Ej). congruence.
  Qed.

  Lemma same_tests_suite_tree g g' ps : edges g' = edges g -> same_tests (weights g) (weights g') -> suite_tree g ps -> suite_tree g' ps.
  Proof.
    intros He H [[Hin Hlen] Hrep Hroot Hall Hsuite Hleaf]. split; rewrite ?He; try done.
    - split; [by rewrite He|]. rewrite He, (same_tests_length _ _ H). done.
    - by rewrite (same_tests_test_at _ _ _ H).
    - intros n t. rewrite (same_tests_test_at _ _ _ H). apply Hleaf.
  Qed.

  (** *** Resetting *)

  Lemma reset_nodes_ok es : forall ws, NoDup (befores es) -> (forall n, n ∈ befores es -> n < length ws) ->
    exists ws', reset_nodes clear es ws = Ok ws' /\ length ws' = length ws
      /\ forall n, ws' !! n = if decide (n ∈ befores es) then (fun wt => SNode (clear (summary wt)) (opt_test wt)) <$> ws !! n else ws !! n.
  Proof.
    induction es as [|ev es IH]; intros ws Hnd Hlt.
    { exists ws. split; [done|]. split; [done|]. intros n. rewrite decide_False; [done|]. apply not_elem_of_nil. }
    destruct ev as [n|n|n k|n k]; try exact (IH ws Hnd Hlt). cbn [reset_nodes].
    change (befores (Before n :: es)) with (n :: befores es) in *. apply NoDup_cons in Hnd as [Hn Hnd].
    destruct (lookup_in_range ws n (Hlt n ltac:(left))) as [wt Hwt]. unfold reset_node, rget. rewrite Hwt. cbn [rbind].
    destruct (IH (<[n := SNode (clear (summary wt)) (opt_test wt)]> ws) Hnd) as (ws' & Hr & Hl & Hws').
    { intros m Hm. rewrite insert_length. apply Hlt. by right. }
    exists ws'. split; [done|]. rewrite insert_length in Hl. split; [done|]. intros m. rewrite Hws'.
    destruct (decide (m = n)) as [->|Hmn].
    - rewrite decide_False by done. rewrite decide_True by left. rewrite list_lookup_insert by by eapply lookup_lt_Some. by rewrite Hwt.
    - rewrite list_lookup_insert_ne by done. destruct (decide (m ∈ befores es)).
      + by rewrite decide_True by by right.
      + rewrite decide_False; [done|]. rewrite elem_of_cons. tauto.
  Qed.

  Lemma reset_tests_ok g ps : suite_tree g ps ->
    exists g', reset_tests clear g = Ok g' /\ edges g' = edges g
      /\ forall n, weights g' !! n = (fun wt => SNode (clear (summary wt)) (opt_test wt)) <$> weights g !! n.
  Proof.
    intros [[Hin Hlen] Hrep Hroot Hall Hsuite Hleaf]. cbn in Hin. unfold reset_tests.
    destruct (dfs_tree_all true (edges g) ps 0 Hin Hrep Hroot Hall) as (t & Hdfs & Hrt & Hsp & Hnd & Hns). rewrite Hdfs. cbn [rbind].
    pose proof (proj1 Hrep) as Hl. unfold order in Hlen.
    destruct (reset_nodes_ok (tree_events t) (weights g)) as (ws' & Hr & Hl' & Hws').
    { by rewrite befores_tree. } { intros n. rewrite befores_tree, Hns. lia. }
    rewrite Hr. cbn [rbind]. eexists. split; [done|]. split; [done|]. intros n. cbn [weights]. rewrite Hws', befores_tree.
    case_decide as Hn; [done|]. rewrite Hns in Hn. rewrite (lookup_ge_None_2 (weights g) n) by lia. done.
  Qed.

  (** *** Totals *)
  Section totals.
    Context {M : Type} (op : M -> M -> M) (e : M) (mu : D -> M).
    Hypothesis Hassoc : forall a b c, op a (op b c) = op (op a b) c.
    Hypothesis Hcomm : forall a b, op a b = op b a.
    Hypothesis Hunit : forall a, op e a = a.
    Hypothesis Hadd : forall a b, mu (add a b) = op (mu a) (mu b).
    Hypothesis Htimed : forall d, mu (timed d) = mu d.

    Lemma run_tests_good (mode : option (list nat -> list nat)) (id : option nat) g ps : suite_tree g ps ->
      (forall sched, mode = Some sched -> tests_sorted parallelizable (weights g) /\ forall ns : list nat, sched ns ≡ₚ ns) ->
      exists g' l, run_tests parallelizable execute add timed mode id g = Ok (g', l)
        /\ edges g' = edges g /\ same_tests (weights g) (weights g')
        /\ good_run execute id (tests_of (weights g)) l /\ (mode <> None -> phases parallelizable l)
        /\ (suites_empty e mu (weights g) -> totals execute op e mu id ps (weights g')).
    Proof.
      intros Hst Hmode. destruct (run_tests_all parallelizable execute add clear timed mode id g ps Hst Hmode)
        as (d0 & g' & l & t & Hr & He & Hl & Hgood & Hph & Hsp & Hrt & Hnd & Hns & Hsub).
      assert (Hlp : length (weights g) = length ps).
      { destruct Hst as [[_ Hlen] [Hlr _] _ _ _ _]. unfold order in Hlen. lia. }
      assert (Hsame : same_tests (weights g) (weights g')).
      { apply same_tests_intro; [done|]. intros n Hn. destruct (sub_at t n) as (u & Hu & <-); [apply Hns; lia|].
        unfold test_at at 1. by rewrite (Hsub u Hu). }
      exists g', l. do 5 (split; [done|]). intros Hempty n wt Hwt.
      destruct (sub_at t n) as (u & Hu & <-); [apply Hns; apply lookup_lt_Some in Hwt; lia|].
      assert (Hin : forall x, x ∈ nodes_of u -> x < length ps) by (intros x Hx; apply Hns; by eapply nodes_of_sub).
      exists (nodes_of u). split; [|split].
      - clear -Hnd Hu. induction Hu as [|m bs b Hb _ IH]; [done|]. apply IH. by eapply NoDup_branch.
      - destruct Hst as [_ Hrep _ _ _ _]. apply (below_sub (edges g) ps u Hrep); [by eapply spans_sub|done].
      - rewrite (Hsub u Hu) in Hwt. injection Hwt as <-. cbn [summary].
        assert (Hlt : forall d, mu (last_timed timed mode (root u) d) = mu d).
        { intros d. unfold last_timed. destruct mode; [|done]. case_decide; [apply Htimed|done]. }
        rewrite Hlt, (mu_dsum execute add op e mu Hassoc Hcomm Hunit Hadd).
        + f_equal. f_equal. apply list_omap_ext. apply Forall_Forall2_diag, Forall_forall. intros x _. symmetry. by apply same_tests_test_at.
        + intros x Hx Htx. unfold summary_at. destruct (lookup_in_range (weights g) x ltac:(specialize (Hin x Hx); lia)) as [wt Hwt].
          rewrite Hwt. cbn. apply (Hempty x wt Hwt). unfold test_at in Htx. by rewrite Hwt in Htx.
    Qed.

    Hypothesis Hclear : forall d, mu (clear d) = e.

    Lemma repeat_tests_good (mode : option (nat -> list nat -> list nat)) reps k ps : forall i g, suite_tree g ps ->
      (forall sched, mode = Some sched -> tests_sorted parallelizable (weights g) /\ forall i (ns : list nat), sched i ns ≡ₚ ns) ->
      (i = 0 -> suites_empty e mu (weights g)) ->
      exists g' ls, repeat_tests parallelizable execute add clear timed mode reps i k g = Ok (g', ls)
        /\ edges g' = edges g /\ same_tests (weights g) (weights g') /\ length ls = k
        /\ (forall j l, ls !! j = Some l -> good_run execute (run_id reps (i + j)) (tests_of (weights g)) l
              /\ (mode <> None -> phases parallelizable l))
        /\ (0 < k -> totals execute op e mu (run_id reps (i + k - 1)) ps (weights g')).
    Proof.
      induction k as [|k IH]; intros i g Hst Hmode Hempty.
      { exists g, []. do 4 (split; [done|]). split; [done|]. lia. }
      cbn [repeat_tests].
      assert (Hpre : exists g1, (if i =? 0 then Ok g else reset_tests clear g) = Ok g1 /\ edges g1 = edges g
         /\ same_tests (weights g) (weights g1) /\ suites_empty e mu (weights g1)).
      { destruct (Nat.eqb_spec i 0) as [Hi|Hi].
        - exists g. do 3 (split; [done|]). by apply Hempty.
        - destruct (reset_tests_ok g ps Hst) as (g1 & H1 & H2 & H3). exists g1. do 2 (split; [done|]). split.
          + apply list_eq. intros n. rewrite !list_lookup_fmap, H3. by destruct (weights g !! n).
          + intros n wt Hwt _. rewrite H3 in Hwt. destruct (weights g !! n); [|done]. injection Hwt as <-. apply Hclear. }
      destruct Hpre as (g1 & Hr & He1 & Hs1 & Hempty1). rewrite Hr. cbn [rbind].
      pose proof (same_tests_suite_tree g g1 ps He1 Hs1 Hst) as Hst1.
      destruct (run_tests_good ((fun sched => sched i) <$> mode) (run_id reps i) g1 ps Hst1) as (g2 & l & Hrun & He2 & Hs2 & Hgood & Hph & Htot).
      { intros sched Hsc. destruct mode as [sc|]; [|done]. injection Hsc as <-. destruct (Hmode sc eq_refl) as [H1 H2]. split; [|apply H2].
        by eapply same_tests_sorted. }
      unfold run_id in Hrun at 1. rewrite Hrun. cbn [rbind fst snd].
      assert (Hs02 : same_tests (weights g) (weights g2)) by (unfold same_tests in *; congruence).
      destruct (IH (S i) g2) as (g3 & ls & Hrep & He3 & Hs3 & Hlen & Hruns & Hlast).
      { apply (same_tests_suite_tree g1 g2 ps He2 Hs2 Hst1). }
      { intros sched Hsc. destruct (Hmode sched Hsc) as [H1 H2]. split; [by eapply same_tests_sorted|done]. }
      { done. }
      rewrite Hrep. cbn [rbind fst snd]. exists g3, (l :: ls). split; [done|]. split; [congruence|].
      split; [unfold same_tests in *; congruence|]. split; [cbn; lia|].
      rewrite (same_tests_tests _ _ Hs1) in Hgood. split.
      - intros [|j] l' Hl'.
        + injection Hl' as <-. rewrite Nat.add_0_r. split; [done|]. intros Hm. apply Hph. by destruct mode.
        + destruct (Hruns j l' Hl') as [H1 H2]. rewrite (same_tests_tests _ _ Hs02) in H1. rewrite Nat.add_succ_r. split; [exact H1|exact H2].
      - intros _. destruct k as [|k].
        + cbn in Hrep. injection Hrep as <- <-. rewrite Nat.add_sub. by apply Htot.
        + specialize (Hlast ltac:(lia)). replace (i + S (S k) - 1) with (S i + S k - 1) by lia. exact Hlast.
    Qed.

    (** [g'] has the nodes of [g], maybe renumbered, with the same tests. *)
    Lemma execute_tests_good (mode : option (nat -> list nat -> list nat)) reps g ps : suite_tree g ps ->
      (forall sched, mode = Some sched -> forall i (ns : list nat), sched i ns ≡ₚ ns) -> suites_empty e mu (weights g) ->
      exists g' ps' f ls, execute_tests parallelizable execute add clear timed mode reps g = Ok (g', ls)
        /\ reordered f g g' /\ (mode = None -> f = Datatypes.id) /\ suite_tree g' ps' /\ length ls = reps
        /\ (forall i l, ls !! i = Some l -> good_run execute (run_id reps i) (tests_of (weights g)) l
              /\ (mode <> None -> phases parallelizable l))
        /\ (0 < reps -> totals execute op e mu (run_id reps (reps - 1)) ps' (weights g')).
    Proof.
      intros Hst Hmode Hempty. unfold execute_tests. destruct mode as [sched|].
      - destruct (sort_tests_ok g ps Hst) as (g1 & f & Hs & Hren & Hf0 & Hst1 & Hsorted). rewrite Hs. cbn [rbind].
        destruct Hren as (Hinj & Hf & Hord & Hrow & Hw).
        assert (Hle : length (edges g) = length (weights g) /\ length (edges g1) = length (weights g1)).
        { destruct Hst as [[_ H1] _ _ _ _ _]. destruct Hst1 as [[_ H2] _ _ _ _ _]. done. }
        assert (Hta : forall a, test_at (weights g1) (f a) = test_at (weights g) a) by (intros a; unfold test_at; by rewrite Hw).
        assert (Hsurj : forall i, i < length (weights g1) -> exists a, a < length (weights g1) /\ f a = i).
        { unfold order in *. apply surjective_below; [done|]. intros a. destruct Hle. rewrite <- H0, Hord. apply Hf. }
        assert (Hto : tests_of (weights g1) ≡ₚ tests_of (weights g)).
        { rewrite <- (tests_of_nodes (weights g1) (map f (seq 0 (length (weights g))))).
          - rewrite <- (tests_of_nodes (weights g) (seq 0 (length (weights g)))); [|apply NoDup_seq|].
            + assert (Heq : forall ns, omap (test_at (weights g1)) (map f ns) = omap (test_at (weights g)) ns); [|by rewrite Heq].
              intros ns. induction ns as [|n ns IHn]; [done|]. cbn. by rewrite Hta, IHn.
            + intros n. rewrite elem_of_seq. lia.
          - apply (NoDup_fmap_2 f), NoDup_seq.
          - intros n. unfold order in *. split.
            + intros Hn. apply elem_of_list_fmap in Hn as (a & -> & Ha). apply elem_of_seq in Ha. specialize (Hf a). lia.
            + intros Hn. destruct (Hsurj n Hn) as (a & Ha & <-). apply elem_of_list_fmap. exists a. split; [done|].
              apply elem_of_seq. lia. }
        destruct (repeat_tests_good (Some sched) reps reps (moved f ps) 0 g1 Hst1) as (g' & ls & Hr & He & Hs1 & Hlen & Hruns & Hlast).
        { intros sc Hsc. split; [done|]. by apply Hmode. }
        { intros _ n wt Hwt Ho. destruct (Hsurj n) as (a & Ha & <-); [by eapply lookup_lt_Some|]. rewrite Hw in Hwt. by eapply Hempty. }
        exists g', (moved f ps), f, ls. split; [done|]. split.
        { split; [done|]. split; [done|]. split; [done|]. rewrite He. split; [done|]. split; [done|].
          intros a. rewrite (same_tests_test_at _ _ _ Hs1). apply Hta. }
        split; [done|]. split; [by eapply same_tests_suite_tree|]. split; [done|]. split.
        { intros i l Hl. destruct (Hruns i l Hl) as [(H1 & H2 & H3 & H4) H5]. split; [|done]. split; [by rewrite H1|]. split; [by rewrite H2, Hto|done]. }
        intros Hreps. exact (Hlast Hreps).
      - cbn [rbind]. destruct (repeat_tests_good None reps reps ps 0 g Hst) as (g' & ls & Hr & He & Hs1 & Hlen & Hruns & Hlast); [done|done|].
        exists g', ps, Datatypes.id, ls. split; [done|]. split.
        { split; [by intros x y|]. split; [done|]. split; [done|]. rewrite He. split; [done|]. split.
          - intros a. unfold Datatypes.id. rewrite <- map_id at 1. apply map_ext. by intros [].
          - intros a. by apply same_tests_test_at. }
        split; [done|]. split; [by eapply same_tests_suite_tree|]. split; [done|]. split; [exact Hruns|exact Hlast].
    Qed.

    (** The summary of the root is the sum over all tests. *)
    Lemma totals_root id g ps : suite_tree g ps -> totals execute op e mu id ps (weights g) ->
      exists wt, weights g !! 0 = Some wt /\ mu (summary wt) = total op e (map (fun t => mu (execute id t)) (tests_of (weights g))).
    Proof.
      intros [[_ Hlen] [Hl _] Hroot Hall _ _] Htot. unfold order in Hlen.
      destruct (lookup_in_range (weights g) 0) as [wt Hwt]; [apply lookup_lt_Some in Hroot; lia|]. exists wt. split; [done|].
      destruct (Htot 0 wt Hwt) as (below & Hnd & Hb & ->). apply (total_perm op e Hassoc Hcomm).
      rewrite (tests_of_nodes (weights g) below Hnd); [done|]. intros n. rewrite Hb. split.
      - intros H. apply anc_lt in H. lia.
      - intros H. apply Hall. lia.
    Qed.
  End totals.
End all.
