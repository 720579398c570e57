From stdpp Require Import list list_numbers.
From Verif.Base Require Import ListLemmas.
From Verif.Pool Require Import Model Spec Proofs ProofsLogs ProofsAlive.

Lemma through_cons q q' t log : through q ((q', t) :: log) = (if decide (q' = q) then [t] else []) ++ through q log.
Proof. unfold through. rewrite filter_cons. cbn [fst]. case_decide; done. Qed.

Lemma through_all n log : Forall (fun x => x.1 < n) log -> concat (map (fun q => through q log) (seq 0 n)) ≡ₚ map snd log.
Proof.
  induction 1 as [|[q t] log Hq _ IH].
  - cbn. induction (seq 0 n); cbn; done.
  - cbn [fst snd map] in *. rewrite <- IH. clear IH.
    assert (Hsp : seq 0 n = seq 0 q ++ q :: seq (S q) (n - S q)).
    { replace n with (q + S (n - S q)) at 1 by lia. rewrite seq_app. done. }
    assert (Hout : forall l, q ∉ l -> map (fun q' => through q' ((q, t) :: log)) l = map (fun q' => through q' log) l).
    { intros l Hl. apply map_ext_in. intros q' Hq'%elem_of_list_In. rewrite through_cons. case_decide as E; [|done]. by subst. }
    rewrite Hsp, !map_app, !concat_app. cbn [map concat]. rewrite !Hout by (rewrite elem_of_seq; lia).
    rewrite through_cons. case_decide as E; [|done]. cbn. symmetry. apply Permutation_middle.
Qed.

Section results.
  Context (c : conf) (Hnum : 0 < num c) (ops : list op).
  Implicit Types s : state.
  Notation nq := (num_queues c).

  Definition gets s : Prop := exists pre, ops = pre ++ todo s /\ forall t, Get t ∈ pre -> t ∈ finished s.

  Lemma step_gets l s s' : gets s -> step c l s = Some s' -> gets s'.
  Proof.
    intros (pre & Hpre & Hg) H%step_cases; [|done].
    assert (Hpush : forall t ops', todo s = Push t :: ops' -> exists pre', ops = pre' ++ ops' /\ forall t, Get t ∈ pre' -> t ∈ finished s).
    { intros t ops' Ht. exists (pre ++ [Push t]). rewrite Hpre, Ht, <- app_assoc. split; [done|]. intros t'. rewrite elem_of_app, elem_of_list_singleton. intros [?|?]; [by apply Hg|done]. }
    destruct H; try (exists pre; split; [exact Hpre|exact Hg]).
    - by eapply Hpush.
    - by eapply Hpush.
    - by eapply Hpush.
    - exists (pre ++ [Get t]). cbn. rewrite Hpre, H0, <- app_assoc. split; [done|]. intros t'. rewrite elem_of_app, elem_of_list_singleton. intros [?|[= ->]]; [by apply Hg|done].
    - exists pre. split; [exact Hpre|]. cbn. intros t' Ht'. apply elem_of_app. left. by apply Hg.
  Qed.

  Record good s : Prop := { go_shape : shape c s; go_logs : logs c ops s; go_alive : alive c s; go_gets : gets s }.

  Lemma run_good ls : forall s s', good s -> run c ls s = Some s' -> good s'.
  Proof.
    induction ls as [|l ls IH]; cbn; intros s s' Hs H; [by injection H as <-|].
    destruct (step c l s) as [s1|] eqn:E; [|done]. apply (IH s1); [|done]. destruct Hs. split.
    - by eapply step_shape.
    - by eapply step_logs.
    - by eapply step_alive.
    - by eapply step_gets.
  Qed.

  Lemma init_good : good (init c ops).
  Proof. split; [by apply init_shape|apply init_logs|apply init_alive|]. exists []. split; [done|]. intros t Ht. by apply elem_of_nil in Ht. Qed.

  Lemma reach ls s : run c ls (init c ops) = Some s -> good s.
  Proof. apply run_good, init_good. Qed.

  (** *** Exactly once *)
  Lemma put_taken s : good s -> map snd (put s) ≡ₚ map snd (taken s) ++ concat (queues s).
  Proof.
    intros [Hs Hl _ _]. rewrite <- (through_all nq (put s)), <- (through_all nq (taken s)) by apply Hl.
    pose proof (lg_fifo _ _ _ Hl) as Hf. rewrite <- (sh_queues _ _ Hs). revert Hf. generalize (taken s) (put s). intros tk pt.
    assert (H : forall (qs : list (list nat)) k, (forall q l, qs !! q = Some l -> through (k + q) tk ++ l = through (k + q) pt) ->
      concat (map (fun q => through q pt) (seq k (length qs))) ≡ₚ concat (map (fun q => through q tk) (seq k (length qs))) ++ concat qs).
    { induction qs as [|l qs IH]; intros k Hq; cbn; [done|]. rewrite (IH (S k)).
      - pose proof (Hq 0 l eq_refl) as H0. rewrite Nat.add_0_r in H0. rewrite <- H0. solve_Permutation.
      - intros q l' Hl'. specialize (Hq (S q) l' Hl'). by rewrite <- Nat.add_succ_comm in Hq. }
    intros Hf. apply (H (queues s) 0 Hf).
  Qed.

  Lemma begun_pushes s : good s -> exists rest, pushes ops ≡ₚ begun s ++ rest.
  Proof.
    intros Hs. pose proof (put_taken s Hs) as Hp. destruct Hs as [_ Hl _ _]. destruct (lg_script _ _ _ Hl) as (pre & Hpre & Hpu).
    rewrite (lg_taken _ _ _ Hl) in Hp.
    exists (concat (map got (workers s)) ++ concat (queues s) ++ hand (at_client s) ++ pushes (todo s)).
    rewrite Hpre at 1. rewrite pushes_app, <- Hpu, Hp. solve_Permutation.
  Qed.

  Lemma exited_all s : good s -> at_client s = CEnd -> workers s = replicate (num c) WExit.
  Proof.
    intros [Hs _ _ _] He. pose proof (sh_client _ _ Hs) as Hc. unfold client_ok in Hc. rewrite He in Hc.
    pose proof (sh_sizes _ _ Hs) as Hz. unfold sizes in Hz. rewrite He in Hz. destruct Hz as [Hz _].
    apply list_eq. intros i. destruct (decide (i < num c)) as [Hi|Hi].
    - rewrite Hc by done. symmetry. by apply lookup_replicate.
    - rewrite !lookup_ge_None_2; [done|rewrite replicate_length; lia|lia].
  Qed.

  Lemma exit_empty s q : good s -> at_client s = CEnd -> q < nq -> queues s !! q = Some [].
  Proof.
    intros Hs He Hq. pose proof (exited_all s Hs He) as Hw. destruct Hs as [Hs _ Ha _].
    assert (exists w, w < num c /\ own c w = q) as (w & Hwn & <-).
    { unfold own, num_queues in *. destruct (multi c); [by exists q|]. exists 0. lia. }
    apply (al_exit _ _ Ha). rewrite Hw. by apply lookup_replicate.
  Qed.

  Lemma end_all s : good s -> at_client s = CEnd -> begun s ≡ₚ pushes ops /\ finished s ≡ₚ pushes ops.
  Proof.
    intros Hs He. pose proof (put_taken s Hs) as Hp. pose proof (exited_all s Hs He) as Hw.
    assert (Hq : concat (queues s) = []).
    { assert (Hall : Forall (fun l => l = []) (queues s)).
      { apply Forall_lookup. intros q l Hl. assert (Hlt : q < nq) by (rewrite <- (sh_queues _ _ (go_shape _ Hs)); by eapply lookup_lt_Some).
        rewrite (exit_empty s q Hs He Hlt) in Hl. congruence. }
      clear - Hall. induction Hall; cbn; [done|]. by subst. }
    destruct Hs as [_ Hl _ _]. pose proof (lg_taken _ _ _ Hl) as Ht. pose proof (lg_begun _ _ _ Hl) as Hb. pose proof (lg_end _ _ _ Hl) as Hend.
    destruct (lg_script _ _ _ Hl) as (pre & Hpre & Hpu). rewrite He in Hend, Hpu. cbn in Hpu. rewrite app_nil_r in Hpu. rewrite Hend, app_nil_r in Hpre. subst pre.
    assert (Hnone : forall f : worker -> list nat, f WExit = [] -> concat (map f (workers s)) = []).
    { intros f Hf. rewrite Hw. clear - Hf. induction (num c); cbn; [done|]. by rewrite Hf. }
    rewrite Hnone in Ht, Hb by done. cbn in Ht, Hb. rewrite Hq, app_nil_r, Hpu, Ht in Hp. rewrite Hb in Hp. split; [by rewrite Hb|done].
  Qed.

  (** *** Going on *)
  Lemma active_goes s w x : good s -> workers s !! w = Some x -> active x -> can_go_on c s.
  Proof.
    intros [Hs _ _ _] Hw (Hx1 & Hx2 & Hx3).
    enough (exists s', step c (Worker w true) s = Some s') as [s' H] by (by exists (Worker w true), s').
    cbn. unfold do_worker. rewrite Hw. pose proof (own_lt c Hnum s w x Hs Hw) as Ho.
    pose proof (shape_ok c s w x Hs Hw) as Hok. unfold worker_ok in Hok.
    destruct x as [| |t|t| |N i| |]; try done; eauto.
    - destruct (lookup_lt_is_Some_2 (queues s) (own c w)) as [[|t l] Heq]; [by rewrite (sh_queues _ _ Hs)| |rewrite Heq; eauto]; rewrite Heq.
      destruct (lookup_lt_is_Some_2 (fin s) (own c w)) as [[|] Hef]; [by rewrite (sh_fin _ _ Hs)| |]; rewrite Hef; eauto.
    - destruct (Nat.ltb_spec i N); [|eauto]. destruct Hok as (-> & _ & Hm).
      destruct (lookup_lt_is_Some_2 (queues s) ((w + i) mod num c)) as [[|t l] Heq]; [rewrite (sh_queues _ _ Hs); by apply mod_queue| |]; rewrite Heq; eauto.
  Qed.

  Lemma worker_state x : x = WWait \/ x = WExit \/ x = WRace \/ active x.
  Proof. destruct x; try tauto; right; right; right; done. Qed.

  Lemma client_goes s s' ok n : step c (Client ok n) s = Some s' -> can_go_on c s.
  Proof. intros H. by exists (Client ok n), s'. Qed.

  Lemma worker_of q : q < nq -> exists w, w < num c /\ own c w = q.
  Proof. unfold own, num_queues. destruct (multi c); [by exists q|]. exists 0. lia. Qed.

  (** Something in a queue is taken by someone, unless the client is about to wake someone up. *)
  Lemma queued_goes s q t l : good s -> length (workers s) = num c -> queues s !! q = Some (t :: l) -> at_client s <> CNotify q -> can_go_on c s.
  Proof.
    intros Hs Hlen Hq Hn. assert (Hlt : q < nq) by (rewrite <- (sh_queues _ _ (go_shape _ Hs)); by eapply lookup_lt_Some).
    destruct (worker_of q Hlt) as (w & Hw & <-). destruct (lookup_lt_is_Some_2 (workers s) w) as [x Hx]; [lia|].
    destruct (worker_state x) as [E1 | [E1 | [E1 | Hax]]]; [subst x|subst x|subst x|].
    - destruct (al_wait _ _ (go_alive _ Hs) w t l Hx Hq) as [?|[_ (w' & y & Hy & Hay)]]; [done|]. by eapply active_goes.
    - destruct (al_exit _ _ (go_alive _ Hs) w Hx). congruence.
    - by destruct (shape_ok c s w _ (go_shape _ Hs) Hx).
    - by eapply active_goes.
  Qed.

  Lemma elem_got s t (f : worker -> list nat) : t ∈ concat (map f (workers s)) -> exists w x, workers s !! w = Some x /\ t ∈ f x.
  Proof.
    intros (l & Hl & Ht)%elem_of_list_In%in_concat. apply in_map_iff in Hl as (x & <- & Hx). apply elem_of_list_In, elem_of_list_lookup in Hx as [w Hx].
    exists w, x. split; [done|]. by apply elem_of_list_In.
  Qed.

  Lemma no_deadlock s : good s -> (forall a t b, ops = a ++ Get t :: b -> t ∈ pushes a) -> at_client s = CEnd \/ can_go_on c s.
  Proof.
    intros Hs Hsc. pose proof Hs as [Hsh Hl Ha _]. assert (at_client s = CEnd \/ at_client s <> CEnd) as [?|Hne] by (destruct (at_client s); tauto || (right; done)); [by left|]. right.
    pose proof (sh_sizes _ _ Hsh) as Hz. unfold sizes in Hz. pose proof (sh_client _ _ Hsh) as Hc. unfold client_ok in Hc.
    destruct (at_client s) as [k|k| |t idx i|t q|q|q|q|k| |] eqn:E; try done.
    - destruct (decide (k < num c)) as [Hk|Hk]; eapply (client_goes s _ true 0); cbn; unfold do_client; rewrite E; [by rewrite (proj2 (Nat.ltb_lt _ _) Hk)|].
      by rewrite (proj2 (Nat.ltb_ge _ _) (proj1 (Nat.nlt_ge _ _) Hk)).
    - eapply (client_goes s _ true 0); cbn; unfold do_client; by rewrite E.
    - destruct (todo s) as [|[t|t] ops'] eqn:Et.
      + eapply (client_goes s _ true 0); cbn; unfold do_client; by rewrite E, Et.
      + enough (exists s', do_client c true 0 s = Some s') as [s' H] by (by eapply (client_goes s s' true 0)).
        unfold do_client. rewrite E, Et. destruct (multi c); [|eauto]. destruct (size s <=? qindex s); eauto.
      + destruct (decide (t ∈ finished s)) as [Hf|Hf].
        { eapply (client_goes s _ true 0). cbn. unfold do_client. rewrite E, Et. by rewrite decide_True. }
        destruct (lg_script _ _ _ Hl) as (pre & Hpre & Hpu). rewrite Et in Hpre. rewrite E in Hpu. cbn in Hpu. rewrite app_nil_r in Hpu.
        pose proof (Hsc _ _ _ Hpre) as Ht. rewrite <- Hpu in Ht. rewrite (put_taken s Hs) in Ht. apply elem_of_app in Ht as [Ht|Ht].
        * rewrite (lg_taken _ _ _ Hl) in Ht. apply elem_of_app in Ht as [Ht|Ht].
          { apply elem_got in Ht as (w & x & Hx & Ht). eapply active_goes; [done|exact Hx|]. destruct x; try by apply elem_of_nil in Ht. done. }
          rewrite (lg_begun _ _ _ Hl) in Ht. apply elem_of_app in Ht as [Ht|Ht]; [|done].
          apply elem_got in Ht as (w & x & Hx & Ht). eapply active_goes; [done|exact Hx|]. destruct x; try by apply elem_of_nil in Ht. done.
        * apply elem_of_list_In, in_concat in Ht as (l & Hin & Ht). apply elem_of_list_In, elem_of_list_lookup in Hin as [q Hq]. destruct l as [|t' l]; [done|].
          eapply queued_goes; [done|lia|exact Hq|]. by rewrite E.
    - enough (exists s', do_client c true 0 s = Some s') as [s' H] by (by eapply (client_goes s s' true 0)).
      unfold do_client. rewrite E. destruct (i <? size s * cycles c); [eauto|]. destruct (size s =? 0); eauto.
    - eapply (client_goes s _ true 0); cbn; unfold do_client; by rewrite E.
    - destruct (waiting c q s) as [|n l] eqn:Ew; [eapply (client_goes s _ true 0); cbn; unfold do_client; by rewrite E, Ew|].
      eapply (client_goes s _ true n). cbn. unfold do_client. rewrite E, Ew. rewrite decide_True by left. done.
    - enough (exists s', do_client c true 0 s = Some s') as [s' H] by (by eapply (client_goes s s' true 0)).
      unfold do_client. rewrite E. destruct (q <? nq); eauto.
    - eapply (client_goes s _ true 0); cbn; unfold do_client; by rewrite E.
    - destruct (decide (k < size s)) as [Hk|Hk].
      + destruct Hz as [Hz1 Hz2]. destruct (lookup_lt_is_Some_2 (workers s) k) as [x Hx]; [lia|].
        destruct (worker_state x) as [E1 | [E1 | [E1 | Hax]]]; [subst x|subst x|subst x|].
        * assert (Hf : fin s !! own c k = Some true).
          { destruct (lookup_lt_is_Some_2 (fin s) (own c k)) as [b Hb]; [rewrite (sh_fin _ _ Hsh); by eapply own_lt|].
            rewrite Hb. apply (al_fin _ _ Ha) in Hb. rewrite E in Hb. cbn in Hb. by subst b. }
          pose proof (al_wait_fin _ _ Ha k Hx Hf). congruence.
        * eapply (client_goes s _ true 0). cbn. unfold do_client. rewrite E, (proj2 (Nat.ltb_lt _ _) Hk), Hx. done.
        * by destruct (shape_ok c s k _ Hsh Hx).
        * by eapply active_goes.
      + eapply (client_goes s _ true 0). cbn. unfold do_client. rewrite E. by rewrite (proj2 (Nat.ltb_ge _ _) (proj1 (Nat.nlt_ge _ _) Hk)).
  Qed.
End results.
