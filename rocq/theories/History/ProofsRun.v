(** Proofs about one run. *)
From Coq Require Import Ascii String NArith.
From stdpp Require Import list relations.
From Verif.Base Require Import Outcome Compare ListLemmas.
From Verif.Text Require Import Model.
From Verif.Graph Require Import Model ModelWeighted ModelTree.
From Verif.Suite Require Import Model Spec ProofsFilter.
From Verif.Runner Require Import Model ModelSuites Spec ProofsSuites.
From Verif.Prune Require Import Model Spec Proofs.
From Verif.Depend Require Import Model Spec ProofsTop ProofsWitness.
From Verif.Select Require Import Model Spec Proofs.
From Verif.History Require Import Model Spec ProofsFiles.
Local Open Scope res_scope.
Local Notation length := List.length.

Section run.
  Context {T : Type} (cutoff : text) (repo : list text) (source rel : T -> list text).
  Hypothesis Hrepo : named repo.
  Implicit Types (e : event T) (t : T).
  Notation proper := (proper_event cutoff repo source rel).

  Lemma items_has_test e t ns : (t, ns) ∈ List.concat (map (items_of []) (suites e)) -> has_test e t.
  Proof.
    rewrite elem_of_list_In, in_concat. intros (l & Hl & Ht). apply in_map_iff in Hl as (s & <- & Hs). exists s, ns.
    by rewrite !elem_of_list_In.
  Qed.
  Lemma has_test_items e t : has_test e t -> exists ns, (t, ns) ∈ List.concat (map (items_of []) (suites e)).
  Proof.
    intros (s & ns & Hs & Ht). exists ns. rewrite elem_of_list_In, in_concat. exists (items_of [] s).
    split; [|by apply elem_of_list_In]. apply in_map_iff. exists s. split; [done|]. by apply elem_of_list_In.
  Qed.

  (** The tests which the filter lets through *)
  Lemma suites_run e ss is : suites e <> [] -> exists g,
    (add_suites tt (fun _ => tt) (fun _ => tt) (matches source (entries e) (tests (world e))) (suites e) (make_filter ss is) (WGraph [] [])).2 = Ok (Done g)
    /\ (forall t, t ∈ omap opt_test (weights g) -> has_test e t)
    /\ (forall t, has_test e t -> (forall ns, wanted (matches source (entries e) (tests (world e))) ss is t ns) -> t ∈ omap opt_test (weights g))
    /\ (length (weights g) <= 1 -> omap opt_test (weights g) = []).
  Proof.
    intros Hne. destruct (add_suites_all (T := T) (D := unit) tt (fun _ => tt) (fun _ => tt) (matches source (entries e) (tests (world e))) (M := unit) tt (fun _ => tt)
      eq_refl (fun _ => eq_refl) (suites e) ss is Hne) as (want & f & g & ps & Hw & Hadd & Hst & _ & Hts).
    exists g. split; [by rewrite Hadd|]. change (omap opt_test (weights g)) with (tests_of (weights g)). split; [|split].
    - intros t. rewrite Hts, elem_of_list_In, in_map_iff. intros ((t', ns) & E & H). cbn in E. subst t'. apply filter_In in H as [H _].
      apply (items_has_test e t ns). by apply elem_of_list_In.
    - intros t Ht Hall. apply has_test_items in Ht as [ns Hns]. rewrite Hts, elem_of_list_In, in_map_iff. exists (t, ns). split; [done|].
      apply filter_In. split; [by apply elem_of_list_In|]. cbn. by apply Hw.
    - intros Hle. pose proof (st_suite _ _ Hst) as Hroot. destruct (weights g) as [|wt [|wt' ws]]; [done| |cbn in Hle; lia].
      unfold tests_of. cbn. unfold test_at in Hroot. cbn in Hroot. by rewrite Hroot.
  Qed.

  Lemma do_prune_filter w l : tests_to_run w cutoff = Ok (Some l) ->
    exists ss is, do_prune w cutoff = Ok (Some (make_filter ss is)) /\ (ss, is) <> (None, None)
      /\ forall m t ns k, k ∈ l -> m k t = true -> wanted (I := T) m ss is t ns.
  Proof.
    intros E. unfold do_prune. rewrite E. cbn [rbind]. destruct l as [|k l].
    - exists (Some []), (Some []). split; [done|]. split; [done|]. intros m t ns k []%elem_of_nil.
    - rewrite (added_items (K := list text) (k :: l) (GFilter None None)) by done. exists None, (Some (k :: l)). split; [done|]. split; [done|].
      intros m t ns k' Hk Hm. right. left. by exists (k :: l), k'.
  Qed.

  (** The prune files: these paths can be read. *)
  Definition known (m : memory) (F P : list (list text)) : Prop :=
    reads (absolute repo) (m_failures m) F /\ reads (absolute repo) (snd <$> m_passes m) P.

  (** Not since the time of the stamp, or since the passing tests were written, has there been a change to something on which this
      test depends. *)
  Definition settled (m : memory) e t : Prop := exists x, (m_stamp m = Some x \/ exists s, m_passes m = Some (x, s))
    /\ (forall g, rtc (needs (world e) cutoff) (absolute repo ++ rel t) g -> (written (world e) g <= x)%N)
    /\ Forall (fun y => (y <= x)%N) (inside (world e) (rel t)).

  Lemma good_nonempty p r : good_path p r -> r <> [].
  Proof. by destruct r. Qed.

  Lemma nodes_recalled w m prune : make_nodes (recall w m) prune = make_nodes w prune.
  Proof.
    unfold make_nodes. change (listing (recall w m)) with (listing w).
    assert (forall l, add_files (recall w m) prune l = add_files w prune l) as ->; [|done].
    induction l as [|f l IH]; [done|]. cbn [add_files]. by rewrite IH.
  Qed.

  Lemma filter_pruned e m F P prune : proper e -> known m F P -> up_to_date e -> m_stamp m = Some prune ->
    exists ss is, do_prune (recall (world e) m) cutoff = Ok (Some (make_filter ss is)) /\ (ss, is) <> (None, None)
      /\ forall t, has_test e t -> (forall ns, wanted (matches source (entries e) (tests (world e))) ss is t ns) \/ (rel t ∉ F /\ settled m e t).
  Proof.
    intros [Hs Hfolder [Hnd Hord] Hent Htime Htests] [[HF HgF] [HP HgP]] Hcur Hst.
    destruct (proj2 (make_nodes_iff (recall (world e) m) prune)) as [ns Hns].
    { intros x f Hx Hf Hc. apply (Hcur x f Hx). by split. }
    pose proof Hns as Hns'. rewrite nodes_recalled in Hns. destruct (Hord prune ns Hns) as [Hpaired Hcyc].
    assert (paired (recall (world e) m) cutoff ns) as Hpaired' by (destruct Hpaired as [H1 H2 H3]; exact (Build_paired (recall (world e) m) cutoff ns H1 H2 H3)).
    destruct (tests_to_run_left_out (recall (world e) m) cutoff prune ns P F Hst Hnd Hns' Hpaired' HP HF) as (l & Hl & Hfail & Hleft).
    destruct (do_prune_filter _ l Hl) as (ss & is & Hdo & Hne & Hw). exists ss, is. split; [done|]. split; [done|].
    intros t Ht. destruct (Htests t Ht) as (Hfile & Hcpp & Hgood & Hnamed & Hcomp).
    destruct (decide (rel t ∈ l)) as [Hin|Hout].
    - left. intros ns'. apply (Hw _ t ns' (rel t) Hin). unfold matches. rewrite Hfolder.
      pose proof (good_nonempty _ _ Hgood) as Hne'. destruct (rel t) as [|x s] eqn:Er; [done|].
      rewrite (selects_pruned (entries e) repo (source t) (x :: s) x s); [done|done|done|done|done| |done].
      destruct Hgood as (_ & _ & _ & Hx). intros Hx'. apply Hx. by right.
    - right. split; [intros H; by apply Hout, Hfail|].
      assert (code (world e) (absolute repo ++ rel t)) as Hcode.
      { split; [done|]. left. unfold is_cpp, file_name in *. by rewrite last_ends by (by eapply good_nonempty). }
      destruct (code_node (world e) prune ns Hns _ Hcode) as (u & n & Hn & Hfn & _).
      destruct (Hleft u n (rel t) Hn) as (x & Hx & Hdep & Hmat).
      { rewrite Hfn. unfold is_cpp, file_name in *. by rewrite last_ends by (by eapply good_nonempty). }
      { by rewrite Hfn, <- Hfolder. } { by eapply good_nonempty. } { apply Hcyc. } { done. }
      exists x. split; [destruct Hx as [-> |Hx]; [by left|by right]|]. split; [|done].
      intros g Hg. rewrite <- Hfn in Hg. destruct (needs_depends_rtc (world e) cutoff prune ns Hns Hnd u n g Hn Hg) as (v & k & Hk & <- & Hv).
      rewrite <- (node_time (world e) prune ns Hns k) by (by eapply elem_of_list_lookup_2). by apply (Hdep v k).
  Qed.

  (** One run, complete or pruned *)
  Lemma run_ok e m F P : proper e -> known m F P -> not_chosen e -> (wish e = Pruned -> m_stamp m <> None -> up_to_date e) ->
    exists ts m' F' P', run cutoff source e m = Ok (ts, m') /\ known m' F' P'
      /\ (forall t, t ∈ ts -> has_test e t)
      /\ (forall t, t ∈ ts -> passed e t = false -> rel t ∈ F')
      /\ (forall t, has_test e t -> t ∉ ts -> rel t ∉ F /\ settled m e t)
      /\ (forall x, m_stamp m' = Some x -> m_stamp m = Some x \/ x = start e)
      /\ (forall x s, m_passes m' = Some (x, s) -> m_passes m = Some (x, s) \/ x = finish e).
  Proof.
    intros Hp Hk Hnc Hcur. pose proof Hp as [Hs Hfolder _ _ _ Htests].
    assert (exists ss is, filter_for (recall (world e) m) cutoff (wish e) = Ok (make_filter ss is)
      /\ forall t, has_test e t -> (forall ns, wanted (matches source (entries e) (tests (world e))) ss is t ns) \/ (rel t ∉ F /\ settled m e t))
      as (ss & is & Hf & Hall).
    { unfold filter_for, not_chosen in *. destruct (wish e); [|clear Hnc|done].
      - exists None, None. split; [done|]. intros t _. left. intros ns. by left.
      - destruct (m_stamp m) as [prune|] eqn:Est.
        + destruct (filter_pruned e m F P prune Hp Hk (Hcur eq_refl ltac:(done)) Est) as (ss & is & -> & _ & H). exists ss, is. by split.
        + exists None, None. unfold do_prune. rewrite tests_to_run_first by done. cbn. split; [done|]. intros t _. left. intros ns. by left. }
    destruct (suites_run e ss is Hs) as (g & Hg & Hin & Hout & Hfew). unfold run. rewrite Hf. cbn [rbind]. rewrite Hg.
    destruct (Nat.leb_spec (length (weights g)) 1) as [Hle|Hgt].
    - exists [], m, F, P. split; [done|]. split; [done|]. split; [by intros t []%elem_of_nil|]. split; [by intros t []%elem_of_nil|].
      split; [|split; by left]. intros t Ht _. destruct (Hall t Ht) as [H|H]; [|done]. apply Hout in H; [|done]. rewrite Hfew in H by done. by apply elem_of_nil in H.
    - set (ts := omap opt_test (weights g)) in *. destruct Hk as [HF HP].
      assert (forall t, has_test e t -> rebase_from (source t) (absolute repo) = Ok (rel t)) as Hreb.
      { intros t Ht. destruct (Htests t Ht) as (_ & _ & Hgood & _ & Hcomp). by apply rebase_source. }
      assert (forall l, (forall t, t ∈ l -> t ∈ ts) -> Forall (rebased (absolute repo)) (map source l)) as Hsrc.
      { intros l Hl. apply Forall_forall. intros p. rewrite elem_of_list_In, in_map_iff. intros (t & <- & Ht).
        apply elem_of_list_In, Hl, Hin in Ht. exists (rel t). split; [by apply Hreb|]. by destruct (Htests t Ht) as (_ & _ & ? & _). }
      rewrite Hfolder.
      destruct (remember_ok (absolute repo) (match make_filter ss is with GFilter None None => false | _ => true end) m (map source ts)
        (map source (List.filter (fun t => negb (passed e t)) ts)) (start e) (finish e) F P) as (m' & F' & P' & -> & HF' & HP' & Hfail & Hst & Hps);
        [done|done|done|by apply Hsrc|apply Hsrc; intros t; rewrite elem_of_list_In, filter_In; intros [? _]; by apply elem_of_list_In|].
      cbn [rbind]. exists ts, m', F', P'. split; [done|]. split; [done|]. split; [done|]. split.
      { intros t Ht Hpass. apply (Hfail (source t)); [|by apply Hreb, Hin]. rewrite elem_of_list_In, in_map_iff. exists t. split; [done|].
        apply filter_In. split; [by apply elem_of_list_In|]. by rewrite Hpass. }
      split. { intros t Ht Hnot. destruct (Hall t Ht) as [H|H]; [|done]. by apply Hout in H. }
      split; [|intros x s Hx; right; exact (Hps _ Hx)].
      intros x Hx. rewrite Hst in Hx. destruct (match make_filter ss is with GFilter None None => false | _ => true end); [by left|].
      right. by injection Hx.
  Qed.

  Lemma run_up_to_date e m x : run cutoff source e m = Ok x -> wish e = Pruned -> m_stamp m <> None -> up_to_date e.
  Proof.
    unfold run. intros H Hw Hm. rewrite Hw in H. cbn [filter_for] in H. unfold do_prune, tests_to_run in H.
    change (stamp (recall (world e) m)) with (m_stamp m) in H. destruct (m_stamp m) as [prune|]; [|done].
    unfold find_stale_tests, analyse in H. rewrite nodes_recalled in H. destruct (make_nodes (world e) prune) as [ns| | |] eqn:Hns; try done.
    intros y f Hy [Hf Hc]. by eapply (proj1 (make_nodes_iff (world e) prune)); [exists ns| | |].
  Qed.

  Lemma run_result e m F P ts m' : proper e -> known m F P -> not_chosen e -> run cutoff source e m = Ok (ts, m') ->
    exists F' P', known m' F' P'
      /\ (forall t, t ∈ ts -> has_test e t)
      /\ (forall t, t ∈ ts -> passed e t = false -> rel t ∈ F')
      /\ (forall t, has_test e t -> t ∉ ts -> rel t ∉ F /\ settled m e t)
      /\ (forall x, m_stamp m' = Some x -> m_stamp m = Some x \/ x = start e)
      /\ (forall x s, m_passes m' = Some (x, s) -> m_passes m = Some (x, s) \/ x = finish e).
  Proof.
    intros Hp Hk Hnc Hr. destruct (run_ok e m F P Hp Hk Hnc (run_up_to_date e m _ Hr)) as (ts' & m'' & F' & P' & Hr' & H).
    rewrite Hr in Hr'. injection Hr' as <- <-. by exists F', P'.
  Qed.
End run.
