From stdpp Require Import list list_numbers.
From Verif.Base Require Import ListLemmas.
From Verif.Pool Require Import Model Spec Proofs ProofsLogs ProofsAlive ProofsResults ProofsTime.

Section order.
  Context (c : conf) (Hone : num c = 1) (ops : list op).
  Implicit Types s : state.

  Definition ordered s : Prop := map snd (taken s) = begun s ++ concat (map got (workers s)).

  Lemma short_list {A} (l : list A) w x : length l <= 1 -> l !! w = Some x -> l = [x] /\ w = 0.
  Proof. destruct l as [|y [|]]; [done| |cbn; lia]. intros _. destruct w as [|[]]; [|done..]. cbn. intros [= ->]. done. Qed.

  Lemma step_ordered l s s' : shape c s -> ordered s -> step c l s = Some s' -> ordered s'.
  Proof.
    intros Hs Ho H%step_cases; [|lia]. unfold ordered in *.
    assert (Hlen : length (workers s) <= 1).
    { pose proof (sh_sizes _ _ Hs) as Hz. unfold sizes in Hz. destruct (at_client s); lia. }
    assert (Hw : forall w x, workers s !! w = Some x -> workers s = [x] /\ w = 0) by (intros; by apply short_list).
    destruct H; try exact Ho.
    1: cbn [taken begun workers set_client set_workers]; rewrite map_app, concat_app; cbn; by rewrite app_nil_r.
    1: { apply waiting_elem in H0 as [H0 _]. destruct (Hw _ _ H0) as [E ->]. cbn [taken begun workers set_client set_worker]. rewrite E in *. exact Ho. }
    1: { cbn [taken begun workers set_client set_workers]. rewrite held_wake; done. }
    all: destruct (Hw _ _ H) as [E ->]; cbn [taken begun workers set_worker dequeue begin finish]; rewrite E in *; cbn in *;
      rewrite ?map_app, ?app_nil_r in *; rewrite Ho; cbn; try done.
    all: try (by rewrite !app_nil_r).
    - destruct (multi c); by rewrite app_nil_r.
    - destruct (making (at_client s)); by rewrite app_nil_r.
  Qed.

  Lemma run_ordered ls : forall s s', shape c s -> ordered s -> run c ls s = Some s' -> ordered s'.
  Proof.
    induction ls as [|l ls IH]; cbn; intros s s' Hs Ho H; [by injection H as <-|].
    destruct (step c l s) as [s1|] eqn:E; [|done]. apply (IH s1); [eapply step_shape; [lia|done..]|by eapply step_ordered|done].
  Qed.

  Lemma one_fifo ls s : run c ls (init c ops) = Some s -> begun s `prefix_of` pushes ops.
  Proof.
    intros H. assert (Hn : 0 < num c) by lia. pose proof (reach c Hn ops ls s H) as [Hs Hl _ _].
    assert (Ho : ordered s) by (eapply (run_ordered ls); [by apply init_shape|done|done]).
    assert (Hq : num_queues c = 1) by (unfold num_queues; destruct (multi c); lia).
    assert (Hthr : forall log, Forall (fun x : nat * nat => x.1 < num_queues c) log -> through 0 log = map snd log).
    { intros log Hlog. unfold through. rewrite Hq in Hlog. clear - Hlog. induction Hlog as [|[q t] log Hqt _ IH]; [done|].
      rewrite filter_cons. cbn in *. rewrite decide_True by lia. cbn. by rewrite IH. }
    destruct (lookup_lt_is_Some_2 (queues s) 0) as [l Hl0]; [rewrite (sh_queues _ _ Hs); lia|].
    pose proof (lg_fifo _ _ _ Hl 0 l Hl0) as Hf. rewrite !Hthr in Hf by apply Hl. destruct (lg_script _ _ _ Hl) as (pre & Hpre & Hpu).
    rewrite Ho in Hf. exists (concat (map got (workers s)) ++ l ++ hand (at_client s) ++ pushes (todo s)).
    rewrite Hpre at 1. rewrite pushes_app, <- Hpu, <- Hf. by rewrite <- !app_assoc.
  Qed.
End order.

Section statements.
  Context (c : conf) (Hnum : 0 < num c) (ops : list op) (ls : list label) (s : state) (Hrun : run c ls (init c ops) = Some s).

  Lemma once : NoDup (pushes ops) -> NoDup (begun s) /\ (forall t, t ∈ begun s -> t ∈ pushes ops).
  Proof.
    intros Hn. destruct (begun_pushes c ops s (reach c Hnum ops ls s Hrun)) as [rest Hr]. split.
    - rewrite Hr in Hn. by apply NoDup_app in Hn as (? & _).
    - intros t Ht. rewrite Hr. apply elem_of_app. by left.
  Qed.

  Lemma joined : at_client s = CEnd -> begun s ≡ₚ pushes ops /\ finished s ≡ₚ pushes ops /\ workers s = replicate (num c) WExit.
  Proof.
    intros He. pose proof (reach c Hnum ops ls s Hrun) as Hg. destruct (end_all c Hnum ops s Hg He). split; [done|]. split; [done|]. by eapply exited_all.
  Qed.

  Lemma got_results : exists pre, ops = pre ++ todo s /\ forall t, Get t ∈ pre -> t ∈ finished s.
  Proof. apply (reach c Hnum ops ls s Hrun). Qed.

  Lemma finished_begun t : t ∈ finished s -> t ∈ begun s.
  Proof. intros Ht. rewrite (lg_begun _ _ _ (go_logs _ _ _ (reach c Hnum ops ls s Hrun))). apply elem_of_app. by right. Qed.

  Lemma never_stuck : (forall a t b, ops = a ++ Get t :: b -> t ∈ pushes a) -> at_client s = CEnd \/ can_go_on c s.
  Proof. apply no_deadlock; [done|]. by eapply reach. Qed.

  Lemma taken_fifo : map snd (put s) `prefix_of` pushes ops /\ forall q, through q (taken s) `prefix_of` through q (put s).
  Proof.
    pose proof (reach c Hnum ops ls s Hrun) as [Hs Hl _ _]. split.
    - destruct (lg_script _ _ _ Hl) as (pre & Hpre & Hpu). exists (hand (at_client s) ++ pushes (todo s)). rewrite Hpre at 1. by rewrite pushes_app, <- Hpu, <- app_assoc.
    - intros q. destruct (queues s !! q) as [l|] eqn:E.
      + exists l. symmetry. by apply (lg_fifo _ _ _ Hl).
      + assert (Hn : forall log, Forall (fun x : nat * nat => x.1 < num_queues c) log -> through q log = []).
        { intros log Hlog. apply lookup_ge_None in E. rewrite (sh_queues _ _ Hs) in E. unfold through. clear - Hlog E. induction Hlog as [|[q' t] log Hqt _ IH]; [done|].
          rewrite filter_cons. cbn in *. rewrite decide_False by lia. done. }
        rewrite !Hn by apply Hl. done.
  Qed.

  Lemma no_undefined : at_client s <> CUndefined /\ WRace ∉ workers s.
  Proof.
    pose proof (reach c Hnum ops ls s Hrun) as [Hs _ _ _]. split.
    - intros He. pose proof (sh_client _ _ Hs) as Hc. unfold client_ok in Hc. by rewrite He in Hc.
    - intros [w Hw]%elem_of_list_lookup. by apply (shape_ok c s w _ Hs) in Hw.
  Qed.
End statements.

Lemma terminates c ops : 0 < num c -> exists bound, forall ls s, run c ls (init c ops) = Some s -> length ls <= bound + 3 * spurious ls.
Proof.
  intros Hn. exists (time c (init c ops)). intros ls s H. pose proof (run_time c Hn ls _ s (init_shape c Hn ops) H). lia.
Qed.
