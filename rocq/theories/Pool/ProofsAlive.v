From stdpp Require Import list list_numbers.
From Verif.Base Require Import ListLemmas.
From Verif.Pool Require Import Model Spec Proofs ProofsLogs.

Definition closed (x : client) (q : nat) : bool :=
  match x with
  | CNotifyAll q' => q <=? q'
  | CFinish q' => q <? q'
  | CJoin _ | CEnd => true
  | _ => false
  end.

Definition active (x : worker) : Prop := x <> WWait /\ x <> WExit /\ x <> WRace.

Section alive.
  Context (c : conf) (Hnum : 0 < num c) (ops : list op).
  Implicit Types s : state.
  Notation nq := (num_queues c).

  Definition someone s : Prop := multi c = false /\ exists w x, workers s !! w = Some x /\ active x.

  Record alive s : Prop := {
    al_fin : forall q b, fin s !! q = Some b -> b = closed (at_client s) q;
    al_exit : forall w, workers s !! w = Some WExit -> fin s !! own c w = Some true /\ queues s !! own c w = Some [];
    al_wait_fin : forall w, workers s !! w = Some WWait -> fin s !! own c w = Some true -> at_client s = CNotifyAll (own c w);
    al_wait : forall w t l, workers s !! w = Some WWait -> queues s !! own c w = Some (t :: l) -> at_client s = CNotify (own c w) \/ someone s
  }.

  Lemma init_alive : alive (init c ops).
  Proof.
    split; cbn; try done. intros q b Hb. by apply lookup_replicate in Hb as [-> _].
  Qed.

  Lemma own_lt s w x : shape c s -> workers s !! w = Some x -> own c w < nq.
  Proof.
    intros Hs Hw. apply lookup_lt_Some in Hw. pose proof (sh_sizes _ _ Hs) as Hz. unfold sizes in Hz. unfold own, num_queues.
    destruct (multi c); [|lia]. destruct (at_client s); lia.
  Qed.

  (** The worker goes on or to sleep; queues may get shorter. *)
  Lemma worker_alive s w x y qs ts ts' ts'' :
    alive s -> workers s !! w = Some x -> active x -> active y ->
    (forall q, queues s !! q = Some [] -> qs !! q = Some []) ->
    (forall q t l, qs !! q = Some (t :: l) -> exists t' l', queues s !! q = Some (t' :: l')) ->
    alive (State qs (fin s) (<[w := y]> (workers s)) (at_client s) (todo s) (qindex s) (size s) (put s) ts ts' ts'').
  Proof.
    intros [H1 H2 H3 H4] Hw (Hx1 & Hx2 & Hx3) Hy Hq1 Hq2.
    assert (Hold : forall w' z, <[w := y]> (workers s) !! w' = Some z -> ~ active z -> workers s !! w' = Some z).
    { intros w' z Hz Ha. destruct (decide (w = w')) as [->|Hne]; [|by rewrite list_lookup_insert_ne in Hz].
      rewrite list_lookup_insert in Hz by (by apply lookup_lt_Some in Hw). injection Hz as <-. done. }
    split; cbn; try done.
    - intros w' Hw'. destruct (H2 w') as [? ?]; [apply Hold; [done|by intros (? & ? & ?)]|]. split; [done|by apply Hq1].
    - intros w' Hw'. apply H3. apply Hold; [done|by intros (? & ? & ?)].
    - intros w' t l Hw' Hl. destruct (Hq2 _ _ _ Hl) as (t' & l' & Hl'). destruct (H4 w' t' l') as [?|[Hm _]]; [apply Hold; [done|by intros (? & ? & ?)]|done|by left|].
      right. split; [done|]. exists w, y. split; [|done]. cbn. apply list_lookup_insert. by apply lookup_lt_Some in Hw.
  Qed.

  (** The worker goes to sleep, or ends, its queue being empty. *)
  Lemma stop_alive s w y (b : bool) :
    alive s -> workers s !! w = Some WPop -> queues s !! own c w = Some [] -> fin s !! own c w = Some b ->
    y = (if b then WExit else WWait) -> alive (set_worker w y s).
  Proof.
    intros [H1 H2 H3 H4] Hw Hq Hf ->.
    assert (Hlt : w < length (workers s)) by (by apply lookup_lt_Some in Hw).
    assert (Hother : forall w' t l, queues s !! own c w' = Some (t :: l) -> own c w' <> own c w).
    { intros w' t l Hl He. rewrite He in Hl. congruence. }
    split; cbn; try done.
    - intros w' Hw'. destruct (decide (w = w')) as [<-|Hne]; [|rewrite list_lookup_insert_ne in Hw' by done; by apply H2].
      rewrite list_lookup_insert in Hw' by done. by destruct b.
    - intros w' Hw' Hf'. destruct (decide (w = w')) as [<-|Hne]; [|rewrite list_lookup_insert_ne in Hw' by done; by apply H3].
      rewrite list_lookup_insert in Hw' by done. destruct b; [done|]. congruence.
    - intros w' t l Hw' Hl. destruct (decide (w = w')) as [<-|Hne]; [congruence|]. rewrite list_lookup_insert_ne in Hw' by done.
      destruct (H4 w' t l Hw' Hl) as [?|[Hm _]]; [by left|]. exfalso. apply (Hother w' t l Hl). unfold own. by rewrite Hm.
  Qed.

  Lemma someone_workers s s' : (forall w x, workers s !! w = Some x -> active x -> exists x', workers s' !! w = Some x' /\ active x') -> someone s -> someone s'.
  Proof. intros H [Hm (w & x & Hw & Hx)]. destruct (H w x Hw Hx) as (x' & ? & ?). split; [done|]. by exists w, x'. Qed.

  Lemma enqueue_alive s q t :
    alive s -> (exists t' idx i, at_client s = CTry t' idx i) \/ (exists t' q', at_client s = CPush t' q') ->
    alive (set_client (CNotify q) (enqueue q t s)).
  Proof.
    intros [H1 H2 H3 H4] Hc. assert (Hcl : forall q, closed (at_client s) q = false) by (intros q'; by destruct Hc as [(? & ? & ? & ->)|(? & ? & ->)]).
    split; cbn.
    - intros q' b Hb. rewrite (H1 _ _ Hb). apply Hcl.
    - intros w Hw. destruct (H2 w Hw) as [Hf _]. apply H1 in Hf. by rewrite Hcl in Hf.
    - intros w Hw Hf. apply H1 in Hf. by rewrite Hcl in Hf.
    - intros w t' l Hw Hl. destruct (decide (own c w = q)) as [<-|Hne]; [by left|]. right. rewrite list_lookup_alter_ne in Hl by done.
      destruct (H4 w t' l Hw Hl) as [Hn|?]; [|done]. destruct Hc as [(? & ? & ? & Hc)|(? & ? & Hc)]; congruence.
  Qed.

  (** The client goes on; nothing is finished, woken up or notified. *)
  Lemma client_alive s x tds qi sz :
    alive s -> (forall q, q < nq -> closed x q = closed (at_client s) q) -> length (fin s) = nq ->
    (forall q, at_client s <> CNotify q) -> (forall q, at_client s <> CNotifyAll q) ->
    alive (State (queues s) (fin s) (workers s) x tds qi sz (put s) (taken s) (begun s) (finished s)).
  Proof.
    intros [H1 H2 H3 H4] Hc Hl Hn Hn'. split; cbn.
    - intros q b Hb. rewrite Hc; [by apply H1|]. rewrite <- Hl. by eapply lookup_lt_Some.
    - done.
    - intros w Hw Hf. by destruct (Hn' (own c w) (H3 w Hw Hf)).
    - intros w t l Hw Hq. right. destruct (H4 w t l Hw Hq) as [?|?]; [|done]. by destruct (Hn (own c w)).
  Qed.

  Lemma active_pop : active WPop. Proof. done. Qed.

  Lemma step_alive l s s' : shape c s -> alive s -> step c l s = Some s' -> alive s'.
  Proof.
    intros Hs Ha H%step_cases; [|done]. pose proof (sh_fin _ _ Hs) as Hlf. pose proof (sh_client _ _ Hs) as Hc. unfold client_ok in Hc.
    assert (Htail : forall q t l q' t' l', queues s !! q = Some (t :: l) -> alter tail q (queues s) !! q' = Some (t' :: l') -> exists t'' l'', queues s !! q' = Some (t'' :: l'')).
    { intros q t l0 q' t' l' Hq. destruct (decide (q' = q)) as [->|Hne]; [intros _; eauto|]. rewrite list_lookup_alter_ne by done. eauto. }
    assert (Hempty : forall q q', queues s !! q' = Some [] -> alter tail q (queues s) !! q' = Some []).
    { intros q q' Hq. destruct (decide (q' = q)) as [->|Hne]; [by rewrite list_lookup_alter, Hq|by rewrite list_lookup_alter_ne]. }
    destruct H.
    - assert (Hold : forall w x, workers s !! w = Some x -> (workers s ++ [WPop]) !! w = Some x) by (intros w x Hw; by apply lookup_app_l_Some).
      assert (Hnew : forall w x, (workers s ++ [WPop]) !! w = Some x -> x <> WPop -> workers s !! w = Some x).
      { intros w x [?|[_ ?]]%lookup_app_Some Hx; [done|]. destruct (w - length (workers s)) as [|[]]; cbn in *; congruence. }
      destruct Ha as [H1 H2 H3 H4]. rewrite H in *. split; cbn; try done.
      + intros w Hw. apply H2. by apply Hnew.
      + intros w Hw Hf. exfalso. apply H1 in Hf. done.
      + intros w t l Hw Hl. destruct (H4 w t l) as [?|?]; [by apply Hnew|done|done|]. right.
        eapply someone_workers; [|done]. cbn. intros w' x Hx Hax. exists x. split; [by apply Hold|done].
    - unfold set_client. apply client_alive; try done; rewrite H; done.
    - apply client_alive; try done; rewrite H; done.
    - unfold set_client, next_op. cbn. apply client_alive; try done; rewrite H; done.
    - unfold set_client, next_op. cbn -[Nat.modulo]. apply client_alive; try done; rewrite H; done.
    - unfold set_client, set_todo. cbn. apply client_alive; try done; rewrite H; done.
    - unfold set_todo. apply client_alive; try done; rewrite H; done.
    - unfold set_client. apply client_alive; try done; rewrite H; try done.
    - apply enqueue_alive; [done|]. left. eauto.
    - unfold set_client. apply client_alive; try done; rewrite H; done.
    - unfold set_client. apply client_alive; try done; rewrite H; done.
    - unfold set_client. apply client_alive; try done; rewrite H; done.
    - apply enqueue_alive; [done|]. right. eauto.
    - destruct Ha as [H1 H2 H3 H4]. rewrite H in *. split; cbn; try done.
      + intros w Hw Hf. apply H1 in Hf. done.
      + intros w t l Hw Hl. right. destruct (H4 w t l Hw Hl) as [[= Hq]|?]; [|done]. exfalso.
        assert (Hin : w ∈ waiting c q s) by (apply waiting_elem; done). rewrite H0 in Hin. by apply elem_of_nil in Hin.
    - apply waiting_elem in H0 as [Hw Hq]. destruct Ha as [H1 H2 H3 H4]. rewrite H in *.
      assert (Hlt : n < length (workers s)) by (by apply lookup_lt_Some in Hw).
      assert (Hold : forall w' z, <[n := WPop]> (workers s) !! w' = Some z -> z <> WPop -> workers s !! w' = Some z /\ w' <> n).
      { intros w' z Hz Hne. destruct (decide (n = w')) as [->|Hne']; [|by rewrite list_lookup_insert_ne in Hz]. rewrite list_lookup_insert in Hz by done. congruence. }
      split; cbn; try done.
      + intros w Hw'. apply H2. by apply Hold.
      + intros w Hw' Hf. apply H1 in Hf. done.
      + intros w t l Hw' Hl. right. destruct (Hold w _ Hw' ltac:(done)) as [Hw'' Hne].
        assert (Hm : multi c = false).
        { destruct (H4 w t l Hw'' Hl) as [[= Hq']|[? _]]; [|done]. destruct (multi c) eqn:E; [|done]. destruct Hne. unfold own in *. rewrite E in *. congruence. }
        split; [done|]. exists n, WPop. cbn. split; [by apply list_lookup_insert|done].
    - destruct Ha as [H1 H2 H3 H4]. rewrite H in *. split; cbn.
      + intros q' b Hb. destruct (decide (q' = q)) as [->|Hne].
        * rewrite list_lookup_insert in Hb by lia. injection Hb as <-. symmetry. apply Nat.leb_le. lia.
        * rewrite list_lookup_insert_ne in Hb by done. rewrite (H1 _ _ Hb). cbn [closed]. destruct (Nat.ltb_spec q' q), (Nat.leb_spec q' q); try done; lia.
      + intros w Hw. destruct (H2 w Hw) as [Hf ?]. split; [|done]. destruct (decide (own c w = q)) as [->|Hne]; [apply list_lookup_insert; lia|by rewrite list_lookup_insert_ne].
      + intros w Hw Hf. destruct (decide (own c w = q)) as [->|Hne]; [done|]. rewrite list_lookup_insert_ne in Hf by done. by specialize (H3 w Hw Hf).
      + intros w t l Hw Hl. right. by destruct (H4 w t l Hw Hl).
    - unfold set_client. apply client_alive; try done; rewrite H; try done. intros q' Hq'. cbn. symmetry. apply Nat.ltb_lt. lia.
    - destruct Ha as [H1 H2 H3 H4]. rewrite H in *.
      assert (Hold : forall w z, imap (fun w x => wake c q (w, x)) (workers s) !! w = Some z -> z <> WPop -> workers s !! w = Some z /\ (z = WWait -> own c w <> q)).
      { intros w z. rewrite list_lookup_imap. destruct (workers s !! w) as [x|]; [|done]. cbn. intros [= <-] Hne. unfold wake, is_waiting in *. cbn in *.
        destruct x; try done. destruct (Nat.eqb_spec (own c w) q); [done|]. done. }
      split; cbn.
      + intros q' b Hb. by rewrite (H1 _ _ Hb).
      + intros w Hw. apply H2. by apply Hold.
      + intros w Hw Hf. destruct (Hold w _ Hw ltac:(done)) as [Hw' Hq]. specialize (H3 w Hw' Hf). injection H3 as H3. by destruct (Hq eq_refl).
      + intros w t l Hw Hl. destruct (Hold w _ Hw ltac:(done)) as [Hw' Hq]. right. destruct (H4 w t l Hw' Hl) as [?|?]; [done|].
        eapply someone_workers; [|done]. cbn. intros w' x Hx Hax. exists x. split; [|done]. rewrite list_lookup_imap, Hx. cbn. unfold wake, is_waiting. cbn. destruct x; try done. by destruct Hax.
    - unfold set_client. apply client_alive; try done; rewrite H; done.
    - unfold set_client. apply client_alive; try done; rewrite H; done.
    - eapply (worker_alive s); [done|done|done|done|by intros; apply Hempty|]. intros q' t' l' Hq'. by eapply Htail.
    - by eapply stop_alive.
    - by eapply stop_alive.
    - eapply (worker_alive s); try done. eauto.
    - eapply (worker_alive s); try done; [by destruct (multi c)|eauto].
    - pose proof (shape_ok c s w _ Hs H) as [Hm _]. rewrite Hm. eapply (worker_alive s); try done. eauto.
    - eapply (worker_alive s); [done|done|done|done|by intros; apply Hempty|]. intros q' t' l' Hq'. by eapply Htail.
    - eapply (worker_alive s); try done. eauto.
    - eapply (worker_alive s); try done. eauto.
    - destruct Ha as [H1 H2 H3 H4]. assert (Hlt : w < length (workers s)) by (by apply lookup_lt_Some in H).
      assert (Hold : forall w' z, <[w := WPop]> (workers s) !! w' = Some z -> z <> WPop -> workers s !! w' = Some z).
      { intros w' z Hz Hne. destruct (decide (w = w')) as [->|Hne']; [|by rewrite list_lookup_insert_ne in Hz]. rewrite list_lookup_insert in Hz by done. congruence. }
      split; cbn; try done.
      + intros w' Hw'. apply H2. by apply Hold.
      + intros w' Hw'. apply H3. by apply Hold.
      + intros w' t l Hw' Hl. destruct (H4 w' t l) as [?|[Hm _]]; [by apply Hold|done|by left|]. right. split; [done|].
        exists w, WPop. cbn. split; [by apply list_lookup_insert|done].
  Qed.
End alive.
