(** Lemmas for C52: one run of the tests. *)
From stdpp Require Import list list_numbers.
From Verif.Base Require Import Outcome ListLemmas.
From Verif.Graph Require Import Model ModelWeighted ModelTree ModelTraverse Spec SpecWeighted SpecTree SpecTraverse SpecSpan
  ProofsTraverseEdges ProofsTraverseDfs ProofsPrune ProofsSpan.
From Verif.Runner Require Import Model Spec.

Section runner.
  Context {T D : Type} (parallelizable : T -> bool) (execute : option nat -> T -> D).
  Context (add : D -> D -> D).
  Notation ex := (exec_at execute).

  (** *** Depth first traversal *)
  Section traversal.
    Context (serial : bool) (id : option nat) (g : graph unit) (tst : nat -> option T) (base : nat -> D).
    Hypothesis Hleaf : forall n t, tst n = Some t -> row g n = [].
    Hypothesis Hbase : serial = false -> forall n t, tst n = Some t -> base n = execute id t.

    Definition own (n : nat) : D := match tst n with Some t => execute id t | None => base n end.

    Fixpoint dsum (t : tree) : D :=
      match t with Node n bs => foldl add (own n) (map (fun b => dsum b.2) bs) end.

    Definition early_steps (n : nat) : list (step T D) :=
      if serial then match tst n with Some t => [Executed t] | None => [] end else [].
    Definition late_steps (n : nat) : list (step T D) :=
      match tst n with Some t => [Processed t (execute id t)] | None => [] end.

    Fixpoint tree_steps (t : tree) : list (step T D) :=
      match t with Node n bs => early_steps n ++ concat (map (fun b => tree_steps b.2) bs) ++ late_steps n end.

    Definition fresh (s : rstate T D) (n : nat) : Prop := nodes s !! n = Some (SNode (base n) (tst n)).
    Notation trav := (traversal execute add serial id g).

    Lemma sum_children_ok n (o : option T) es ds : forall (ws : list (snode T D)) d,
      ws !! n = Some (SNode d o) ->
      Forall2 (fun (e : edge unit) d => tgt e <> n /\ exists o, ws !! tgt e = Some (SNode d o)) es ds ->
      sum_children add n es ws = Ok (<[n := SNode (foldl add d ds) o]> ws).
    Proof.
      revert ds. induction es as [|e es IH]; intros ds ws d Hn H; inversion H as [|? d' ? ds' [Hne [o' Hc]] Hr]; subst; cbn [sum_children].
      { f_equal. by rewrite list_insert_id. }
      unfold rget at 1. rewrite Hn. cbn [rbind]. unfold rget. rewrite Hc. cbn [rbind summary opt_test foldl].
      rewrite (IH ds' _ (add d d')).
      - by rewrite list_insert_insert.
      - rewrite list_lookup_insert; [done|]. by eapply lookup_lt_Some.
      - eapply Forall2_impl; [exact Hr|]. intros f v [Hf [of Hv]]. split; [done|]. exists of. by rewrite list_lookup_insert_ne.
    Qed.

    Lemma spans_branches n bs : spans g (Node n bs) ->
      Forall2 (fun (e : edge unit) b => tgt e = root b.2) (row g n) bs.
    Proof.
      intros H. inversion H as [? ? Hf Hb]; subst. apply Forall2_same_length_lookup. split.
      { apply (f_equal length) in Hf. rewrite map_length, seq_length in Hf. done. }
      intros i e b He Hbi. rewrite Forall_forall in Hb. destruct (Hb b ltac:(by eapply elem_of_list_lookup_2)) as [Hlk _].
      assert (b.1 = i) as Hi.
      { apply (f_equal (fun l => l !! i)) in Hf. rewrite list_lookup_fmap, Hbi in Hf. cbn in Hf.
        rewrite lookup_seq_lt in Hf by by eapply lookup_lt_Some. by injection Hf. }
      rewrite Hi, He in Hlk. by injection Hlk.
    Qed.

    Definition after_tree (t : tree) (s : rstate T D) (ws : list (snode T D)) : Prop :=
      (forall n, n ∉ nodes_of t -> ws !! n = nodes s !! n) /\
      forall u, sub_tree u t -> ws !! root u = Some (SNode (dsum u) (tst (root u))).

    Lemma trav_tree t : forall s rest, spans g t -> NoDup (nodes_of t) ->
      (forall n, n ∈ nodes_of t -> fresh s n /\ n < length g) ->
      exists ws, trav (tree_events t ++ rest) s =
          trav rest (RState ws (depth s) (steps s ++ tree_steps t ++ if depth s =? 0 then [Updated] else []))
        /\ after_tree t s ws.
    Proof.
      induction t as [n bs IH] using tree_branch_ind. intros s rest Hsp Hnd Hfr.
      destruct (Hfr n ltac:(left)) as [Hn Hng]. unfold fresh in Hn.
      pose proof (spans_branches n bs Hsp) as Hrow. inversion Hsp as [? ? _ Hbs]; subst.
      rewrite tree_events_node. change ((Before n :: branch_events n bs ++ [After n]) ++ rest) with
        (Before n :: (branch_events n bs ++ [After n]) ++ rest). rewrite <- app_assoc. cbn [traversal].
      (* before *)
      set (s1 := RState (<[n := SNode (own n) (tst n)]> (nodes s)) (S (depth s)) (steps s ++ early_steps n)).
      assert (Hearly : node_early execute serial id n s = Ok s1).
      { unfold node_early, s1, early_steps, own. destruct serial eqn:Es.
        - cbn [nodes]. unfold rget at 1. rewrite Hn. cbn [rbind opt_test]. destruct (tst n) as [t|] eqn:Et.
          + unfold exec_at. cbn [nodes]. unfold rget. rewrite Hn. cbn [rbind opt_test]. done.
          + rewrite list_insert_id by done. by rewrite app_nil_r.
        - cbn [app]. rewrite app_nil_r. f_equal. f_equal. rewrite list_insert_id; [done|]. rewrite Hn.
          destruct (tst n) as [t|] eqn:Et; [|done]. f_equal. f_equal. by apply Hbase. }
      rewrite Hearly. cbn [rbind]. clear Hearly.
      (* branches *)
      cbn [nodes_of] in Hnd. apply NoDup_cons in Hnd as [Hnn Hnd].
      assert (Hbranch : forall bs0, (forall b, b ∈ bs0 -> b ∈ bs) -> NoDup (concat (map (fun b => nodes_of b.2) bs0)) ->
        forall s rest, depth s <> 0 -> (forall b m, b ∈ bs0 -> m ∈ nodes_of b.2 -> fresh s m) ->
        exists ws, trav (branch_events n bs0 ++ rest) s =
            trav rest (RState ws (depth s) (steps s ++ concat (map (fun b => tree_steps b.2) bs0)))
          /\ (forall m, m ∉ concat (map (fun b => nodes_of b.2) bs0) -> ws !! m = nodes s !! m)
          /\ forall b u, b ∈ bs0 -> sub_tree u b.2 -> ws !! root u = Some (SNode (dsum u) (tst (root u)))).
      { induction bs0 as [|b bs0 IHbs]; intros Hsub Hnd0 s0 rest0 Hd Hf0.
        { exists (nodes s0). cbn. rewrite app_nil_r. split; [by destruct s0|]. split; [done|].
          intros b u Hb. by apply elem_of_nil in Hb. }
        cbn [map concat] in Hnd0. apply NoDup_app in Hnd0 as (Hnd1 & Hdis & Hnd2).
        unfold branch_events. cbn [map concat]. fold (branch_events n bs0).
        change (((First n b.1 :: tree_events b.2) ++ ?l) ++ rest0) with (First n b.1 :: (tree_events b.2 ++ l) ++ rest0).
        cbn [traversal]. rewrite <- app_assoc. assert (Hb : b ∈ bs) by (apply Hsub; left).
        rewrite Forall_forall in Hbs. destruct (IH b Hb s0 (branch_events n bs0 ++ rest0)) as (ws & Hws & Hout & Hin).
        { by apply Hbs. } { done. }
        { intros m Hm. split; [apply (Hf0 b); [left|done]|]. apply Hfr. cbn. right. apply elem_of_concat_map. by exists b. }
        rewrite Hws. destruct (Nat.eqb_spec (depth s0) 0); [done|]. rewrite app_nil_r.
        destruct (IHbs ltac:(intros c Hc; apply Hsub; by right) Hnd2
                    (RState ws (depth s0) (steps s0 ++ tree_steps b.2)) rest0 Hd) as (ws' & Hws' & Hout' & Hin').
        { intros c m Hc Hm. unfold fresh. cbn [nodes]. rewrite Hout; [apply (Hf0 c); [by right|done]|].
          intros Hmb. apply (Hdis m Hmb). apply elem_of_concat_map. by exists c. }
        exists ws'. rewrite Hws'. cbn [depth steps map concat]. rewrite <- app_assoc. split; [done|]. split.
        - intros m Hm. rewrite elem_of_app in Hm. rewrite Hout' by tauto. cbn [nodes]. apply Hout. tauto.
        - intros c u Hc Hu. apply elem_of_cons in Hc as [-> | Hc]; [|by eapply Hin'].
          rewrite Hout'; [by apply Hin|]. apply Hdis. eapply nodes_of_sub; [exact Hu|apply root_node]. }
      assert (Hnl : n < length (nodes s)) by by eapply lookup_lt_Some.
      destruct (Hbranch bs ltac:(done) Hnd s1 ([After n] ++ rest)) as (ws & Hws & Hout & Hin).
      { done. }
      { intros b m Hb Hm. unfold fresh, s1. cbn [nodes]. assert (Hmc : m ∈ concat (map (fun b => nodes_of b.2) bs)).
        { apply elem_of_concat_map. by exists b. }
        rewrite list_lookup_insert_ne by (intros ->; done). apply Hfr. cbn. by right. }
      rewrite Hws. clear Hws Hbranch. cbn [app traversal]. unfold node_late.
      rewrite list_lookup_lookup_total_lt by done.
      assert (Hgn : g !!! n = row g n).
      { unfold row. by rewrite (list_lookup_lookup_total_lt g n Hng). }
      rewrite Hgn. cbn [rbind nodes].
      assert (Hwn : ws !! n = Some (SNode (own n) (tst n))).
      { rewrite Hout by done. unfold s1. cbn [nodes]. by rewrite list_lookup_insert. }
      rewrite (sum_children_ok n (tst n) (row g n) (map (fun b => dsum b.2) bs) ws (own n) Hwn).
      2: { apply Forall2_fmap_r. eapply Forall2_impl; [|intros e b H; exact H].
           apply Forall2_same_length_lookup. apply Forall2_same_length_lookup in Hrow as [Hlen Hrow]. split; [done|].
           intros i e b He Hb. specialize (Hrow i e b He Hb). assert (Hbb : b ∈ bs) by by eapply elem_of_list_lookup_2. split.
           - rewrite Hrow. intros E. apply Hnn. apply elem_of_concat_map. exists b. split; [done|]. rewrite <- E. apply root_node.
           - exists (tst (tgt e)). rewrite Hrow. apply (Hin b); [done|constructor]. }
      cbn [rbind]. assert (Hwl : n < length ws) by by eapply lookup_lt_Some.
      unfold rget. rewrite list_lookup_insert by done. cbn [rbind opt_test summary].
      exists (<[n:=SNode (dsum (Node n bs)) (tst n)]> ws). split.
      - f_equal. unfold decrement_depth, s1. cbn [nodes depth steps]. rewrite Nat.sub_succ, Nat.sub_0_r. f_equal.
        cbn [tree_steps]. unfold late_steps. destruct (tst n) as [t|] eqn:Et.
        + assert (bs = []) as ->.
          { rewrite (Hleaf n t Et) in Hrow. by inversion Hrow. }
          cbn. unfold own. rewrite Et. by rewrite <- !app_assoc.
        + rewrite !app_nil_r. by rewrite <- !app_assoc.
      - split.
        + intros m Hm. cbn in Hm. rewrite elem_of_cons in Hm. rewrite list_lookup_insert_ne by (intros ->; tauto).
          rewrite Hout by tauto. unfold s1. cbn [nodes]. by rewrite list_lookup_insert_ne by (intros ->; tauto).
        + intros u Hu. inversion Hu as [|? ? b Hb Hs]; subst; [by rewrite list_lookup_insert|].
          rewrite list_lookup_insert_ne; [by eapply Hin|]. intros ->. apply Hnn. apply elem_of_concat_map. exists b.
          split; [done|]. eapply nodes_of_sub; [exact Hs|apply root_node].
    Qed.
  End traversal.

  (** *** The concurrent phase *)

  Definition is_serial (wt : snode T D) : Prop := exists t, opt_test wt = Some t /\ parallelizable t = false.
  Definition is_parallel (wt : snode T D) : Prop := exists t, opt_test wt = Some t /\ parallelizable t = true.

  Lemma sorted_split ws : tests_sorted parallelizable ws ->
    exists a b c, ws = a ++ b ++ c /\ Forall (fun wt => opt_test wt = None) a /\ Forall is_serial b /\ Forall is_parallel c.
  Proof.
    induction ws as [|w ws IH]; intros Hs.
    { exists [], [], []. done. }
    destruct IH as (a & b & c & -> & Ha & Hb & Hc).
    { intros i j wi wj t Hij Hi Hj Ht. apply (Hs (S i) (S j) wi wj t); [lia|done|done|done]. }
    destruct (opt_test w) as [t|] eqn:Et.
    - assert (Hlater : forall j wj, (a ++ b ++ c) !! j = Some wj ->
                exists u, opt_test wj = Some u /\ (parallelizable t = true -> parallelizable u = true)).
      { intros j wj Hj. by apply (Hs 0 (S j) w wj t); [lia|done|done|]. }
      assert (a = []) as ->.
      { destruct a as [|w' a]; [done|]. destruct (Hlater 0 w' eq_refl) as (u & Hu & _). inversion Ha; congruence. }
      destruct (parallelizable t) eqn:Ep.
      + assert (b = []) as ->.
        { destruct b as [|w' b]; [done|]. destruct (Hlater 0 w' eq_refl) as (u & Hu & Hpu). inversion Hb as [|? ? (u' & Hu' & Hpu')]; subst.
          specialize (Hpu eq_refl). congruence. }
        exists [], [], (w :: c). split; [done|]. split; [done|]. split; [done|]. constructor; [by exists t|done].
      + exists [], (w :: b), c. split; [done|]. split; [done|]. split; [|done]. constructor; [by exists t|done].
    - exists (w :: a), b, c. split; [done|]. split; [by constructor|done].
  Qed.

  Lemma find_test_suites a ws : Forall (fun wt : snode T D => opt_test wt = None) a ->
    match ws with wt :: _ => opt_test wt <> None | [] => True end -> find_test (a ++ ws) = length a.
  Proof.
    intros Ha Hw. induction Ha as [|w a Hw' _ IH]; cbn.
    - destruct ws as [|w ws]; [done|]. cbn. by destruct (opt_test w).
    - rewrite Hw'. by rewrite IH.
  Qed.

  Lemma find_parallel_serial b c : Forall is_serial b -> Forall is_parallel c -> find_parallel parallelizable (b ++ c) = Ok (length b).
  Proof.
    intros Hb Hc. induction Hb as [|w b (t & Ht & Hp) _ IH]; cbn.
    - destruct Hc as [|w c (t & Ht & Hp)]; [done|]. cbn. by rewrite Ht, Hp.
    - rewrite Ht, Hp, IH. done.
  Qed.

  (** The nodes after some tests have been executed. *)
  Definition ran (id : option nat) (ns : list nat) (ws ws' : list (snode T D)) : Prop :=
    length ws' = length ws /\
    forall n, ws' !! n = if decide (n ∈ ns) then (fun wt => SNode (default (summary wt) (execute id <$> opt_test wt)) (opt_test wt)) <$> ws !! n
                         else ws !! n.

  Lemma exec_all_ok id ns : forall s, NoDup ns -> (forall n, n ∈ ns -> is_Some (test_at (nodes s) n)) ->
    exists ws, exec_all execute id ns s = Ok (RState ws (depth s) (steps s ++ map Executed (omap (test_at (nodes s)) ns)))
      /\ ran id ns (nodes s) ws.
  Proof.
    induction ns as [|n ns IH]; intros s Hnd Ht; cbn [exec_all].
    { exists (nodes s). rewrite app_nil_r. split; [by destruct s|]. split; [done|]. intros n. rewrite decide_False; [done|]. apply not_elem_of_nil. }
    apply NoDup_cons in Hnd as [Hn Hnd]. destruct (Ht n ltac:(left)) as [t Htn]. unfold exec_at.
    unfold test_at in Htn. destruct (nodes s !! n) as [wt|] eqn:En; [|done]. cbn in Htn. unfold rget. rewrite En. cbn [rbind]. rewrite Htn.
    cbn [rbind]. set (s1 := RState (<[n := SNode (execute id t) (Some t)]> (nodes s)) (depth s) (steps s ++ [Executed t])).
    assert (Hnl : n < length (nodes s)) by by eapply lookup_lt_Some.
    assert (Hta : forall m, test_at (nodes s1) m = test_at (nodes s) m).
    { intros m. unfold test_at, s1. cbn [nodes]. destruct (decide (m = n)) as [->|].
      - rewrite list_lookup_insert by done. rewrite En. cbn. by rewrite Htn.
      - by rewrite list_lookup_insert_ne by done. }
    destruct (IH s1 Hnd) as (ws & Hws & Hlen & Hran).
    { intros m Hm. rewrite Hta. apply Ht. by right. }
    exists ws. rewrite Hws. split.
    - unfold s1 at 1 2. cbn [depth steps]. f_equal. f_equal. cbn [omap list_omap]. unfold test_at at 2. rewrite En. cbn [mbind option_bind]. rewrite Htn.
      cbn [map]. rewrite <- app_assoc. cbn [app]. f_equal. f_equal. f_equal. apply list_omap_ext. apply Forall_Forall2_diag. apply Forall_forall. intros m _. apply Hta.
    - split; [rewrite Hlen; unfold s1; cbn; apply insert_length|]. intros m. rewrite Hran. unfold s1. cbn [nodes].
      destruct (decide (m = n)) as [->|Hmn].
      + rewrite decide_False by done. rewrite decide_True by left. rewrite list_lookup_insert by done. rewrite En. cbn. by rewrite Htn.
      + rewrite list_lookup_insert_ne by done. destruct (decide (m ∈ ns)).
        * by rewrite decide_True by by right.
        * rewrite decide_False; [done|]. rewrite elem_of_cons. tauto.
  Qed.

  Lemma omap_seq_lookup {A B} (f : A -> option B) (l pre suf : list A) :
    omap (fun n => (pre ++ l ++ suf) !! n ≫= f) (seq (length pre) (length l)) = omap f l.
  Proof.
    revert pre. induction l as [|a l IH]; intros pre; [done|]. cbn [length seq omap list_omap].
    rewrite lookup_app_r by lia. rewrite Nat.sub_diag. cbn [app lookup list_lookup mbind option_bind].
    assert (Hr : omap (fun n => (pre ++ a :: l ++ suf) !! n ≫= f) (seq (S (length pre)) (length l)) = omap f l).
    { specialize (IH (pre ++ [a])). rewrite app_length in IH. cbn in IH. rewrite Nat.add_1_r in IH. rewrite <- app_assoc in IH. exact IH. }
    cbn [app]. rewrite Hr. done.
  Qed.

  Lemma concurrent_phase_ok sched id s : tests_sorted parallelizable (nodes s) -> (forall l, sched l ≡ₚ l) ->
    exists ws t1 t2, concurrent_phase parallelizable execute sched id s =
        Ok (RState ws (depth s) (steps s ++ map Executed t1 ++ map Executed t2))
      /\ t1 ++ t2 ≡ₚ tests_of (nodes s)
      /\ Forall (fun t => parallelizable t = false) t1 /\ Forall (fun t => parallelizable t = true) t2
      /\ length ws = length (nodes s)
      /\ forall n, ws !! n = (fun wt => SNode (default (summary wt) (execute id <$> opt_test wt)) (opt_test wt)) <$> nodes s !! n.
  Proof.
    intros Hs Hsched. destruct (sorted_split _ Hs) as (a & b & c & Hws & Ha & Hb & Hc). unfold concurrent_phase.
    assert (Hft : find_test (nodes s) = length a).
    { rewrite Hws. apply find_test_suites; [done|]. destruct Hb as [|w b (t & Ht & _)]; cbn.
      - destruct Hc as [|w c (t & Ht & _)]; [done|]. by rewrite Ht.
      - by rewrite Ht. }
    rewrite Hft. assert (Hfp : find_parallel parallelizable (drop (length a) (nodes s)) = Ok (length b)).
    { rewrite Hws, drop_app. by apply find_parallel_serial. }
    rewrite Hfp. cbn [rbind].
    assert (Htb : forall n, length a <= n < length a + length b + length c -> is_Some (test_at (nodes s) n)).
    { intros n Hn. unfold test_at. rewrite Hws. rewrite lookup_app_r by lia.
      assert (Hbc : Forall (fun wt => is_Some (opt_test wt)) (b ++ c)).
      { apply Forall_app. split; (eapply Forall_impl; [eassumption|]); intros w (t & -> & _); done. }
      destruct (lookup_in_range (b ++ c) (n - length a)) as [w Hw]; [rewrite app_length; lia|]. rewrite Hw. cbn.
      rewrite Forall_lookup in Hbc. by apply (Hbc _ _ Hw). }
    destruct (exec_all_ok id (seq (length a) (length b)) s) as (ws1 & He1 & Hl1 & Hr1).
    { apply NoDup_seq. } { intros n Hn. apply elem_of_seq in Hn. apply Htb. lia. }
    rewrite He1. cbn [rbind nodes]. set (ns := seq (length a + length b) (length ws1 - (length a + length b))).
    assert (Hlen : length (nodes s) = length a + length b + length c) by (rewrite Hws, !app_length; lia).
    assert (Hns : ns = seq (length a + length b) (length c)) by (unfold ns; f_equal; lia).
    assert (Hta : forall m, test_at ws1 m = test_at (nodes s) m).
    { intros m. unfold test_at. rewrite Hr1. case_decide; [|done]. by destruct (nodes s !! m) as [[]|]. }
    set (s1 := RState ws1 (depth s) (steps s ++ map Executed (omap (test_at (nodes s)) (seq (length a) (length b))))).
    destruct (exec_all_ok id (sched ns) s1) as (ws2 & He2 & Hl2 & Hr2).
    { rewrite Hsched, Hns. apply NoDup_seq. }
    { intros n Hn. rewrite Hsched, Hns in Hn. apply elem_of_seq in Hn. unfold s1. cbn [nodes]. rewrite Hta. apply Htb. lia. }
    exists ws2, (omap opt_test b), (omap (test_at (nodes s)) (sched ns)).
    assert (Hob : omap (test_at (nodes s)) (seq (length a) (length b)) = omap opt_test b).
    { unfold test_at. rewrite Hws. apply omap_seq_lookup. }
    assert (Hoc : omap (test_at (nodes s)) (seq (length a + length b) (length c)) = omap opt_test c).
    { unfold test_at. rewrite Hws. pose proof (omap_seq_lookup opt_test c (a ++ b) []) as H. rewrite app_length, app_nil_r, <- app_assoc in H. exact H. }
    assert (Hop : omap (test_at (nodes s)) (sched ns) ≡ₚ omap opt_test c).
    { rewrite <- Hoc, <- Hns. by rewrite (Hsched ns). }
    split.
    { rewrite He2. unfold s1 at 1 2. cbn [depth steps]. rewrite Hob. rewrite <- app_assoc. do 2 f_equal. f_equal. f_equal. f_equal.
      apply list_omap_ext. apply Forall_Forall2_diag. apply Forall_forall. intros m _. apply Hta. }
    split.
    { rewrite Hop. unfold tests_of. rewrite Hws, !omap_app. assert (omap opt_test a = []) as ->; [|done].
      clear -Ha. induction Ha as [|w a Hw _ IH]; [done|]. cbn. by rewrite Hw. }
    split.
    { clear -Hb. induction Hb as [|w b (t & Ht & Hp) _ IH]; [constructor|]. cbn. rewrite Ht. by constructor. }
    split.
    { rewrite Hop. clear -Hc. induction Hc as [|w c (t & Ht & Hp) _ IH]; [constructor|]. cbn. rewrite Ht. by constructor. }
    split; [unfold s1 in Hl2; cbn in Hl2; lia|].
    intros n. rewrite Hr2. unfold s1. cbn [nodes]. rewrite Hr1.
    destruct (nodes s !! n) as [[d o]|] eqn:En; [|by repeat case_decide].
    assert (Hn : n < length a + length b + length c) by (rewrite <- Hlen; by eapply lookup_lt_Some).
    destruct (decide (n < length a)) as [Hna|Hna].
    - rewrite decide_False. 2: { rewrite Hsched, Hns, elem_of_seq. lia. }
      rewrite decide_False by (rewrite elem_of_seq; lia). cbn.
      rewrite Hws, lookup_app_l in En by done. rewrite Forall_lookup in Ha. specialize (Ha _ _ En). cbn in Ha. by subst.
    - destruct (decide (n < length a + length b)) as [Hnb|Hnb].
      + rewrite decide_False. 2: { rewrite Hsched, Hns, elem_of_seq. lia. }
        rewrite decide_True by (rewrite elem_of_seq; lia). done.
      + rewrite decide_True. 2: { rewrite Hsched, Hns, elem_of_seq. lia. }
        rewrite decide_False by (rewrite elem_of_seq; lia). done.
  Qed.
End runner.
