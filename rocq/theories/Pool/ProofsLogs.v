From stdpp Require Import list list_numbers.
From Verif.Base Require Import ListLemmas.
From Verif.Pool Require Import Model Spec Proofs.

Definition hand (x : client) : list nat := match x with CTry t _ _ | CPush t _ => [t] | _ => [] end.
Definition got (x : worker) : list nat := match x with WGot t => [t] | _ => [] end.
Definition running (x : worker) : list nat := match x with WRun t => [t] | _ => [] end.

Lemma held_insert {A B} (f : A -> list B) l w x y : l !! w = Some x -> concat (map f (<[w := y]> l)) ++ f x ≡ₚ concat (map f l) ++ f y.
Proof.
  revert w. induction l as [|a l IH]; intros w Hw; [done|]. destruct w as [|w]; cbn in Hw.
  - injection Hw as ->. cbn. rewrite (Permutation_app_comm (f y)), (Permutation_app_comm (f x)), <- !app_assoc. apply Permutation_app_head. apply Permutation_app_comm.
  - change (concat (map f (<[S w := y]> (a :: l)))) with (f a ++ concat (map f (<[w := y]> l))). change (concat (map f (a :: l))) with (f a ++ concat (map f l)).
    rewrite <- !app_assoc. by rewrite (IH w Hw).
Qed.

Lemma held_same {A B} (f : A -> list B) l w x y : l !! w = Some x -> f x = f y -> concat (map f (<[w := y]> l)) = concat (map f l).
Proof.
  revert w. induction l as [|a l IH]; intros w Hw Hf; [done|]. destruct w as [|w]; cbn in Hw; [injection Hw as ->; cbn; by rewrite Hf|].
  change (concat (map f (<[S w := y]> (a :: l)))) with (f a ++ concat (map f (<[w := y]> l))). by rewrite (IH w).
Qed.

Lemma held_wake {B} (f : worker -> list B) c q l : f WPop = f WWait -> concat (map f (imap (fun w x => wake c q (w, x)) l)) = concat (map f l).
Proof.
  intros Hf. f_equal. change (map f (imap (fun w x => wake c q (w, x)) l)) with (f <$> imap (fun w x => wake c q (w, x)) l).
  apply list_eq. intros i. change (map f l) with (f <$> l). rewrite !list_lookup_fmap, list_lookup_imap. destruct (l !! i) as [x|]; [|done]. cbn. f_equal.
  unfold wake, is_waiting. cbn. destruct x; try done. by destruct (_ =? _).
Qed.

Lemma through_app q l l' : through q (l ++ l') = through q l ++ through q l'.
Proof. unfold through. by rewrite filter_app, map_app. Qed.

Lemma through_same q t : through q [(q, t)] = [t].
Proof. unfold through. rewrite filter_cons_True by done. done. Qed.

Lemma through_other q q' t : q <> q' -> through q [(q', t)] = [].
Proof. intros H. unfold through. rewrite filter_cons_False by (cbn; congruence). done. Qed.

Lemma pushes_app a b : pushes (a ++ b) = pushes a ++ pushes b.
Proof. apply omap_app. Qed.

Section logs.
  Context (c : conf) (Hnum : 0 < num c) (ops : list op).
  Implicit Types s : state.
  Notation nq := (num_queues c).

  Record logs s : Prop := {
    lg_script : exists pre, ops = pre ++ todo s /\ map snd (put s) ++ hand (at_client s) = pushes pre;
    lg_end : match at_client s with CFinish _ | CNotifyAll _ | CJoin _ | CEnd => todo s = [] | _ => True end;
    lg_fifo : forall q l, queues s !! q = Some l -> through q (taken s) ++ l = through q (put s);
    lg_put : Forall (fun x => x.1 < nq) (put s);
    lg_range : Forall (fun x => x.1 < nq) (taken s);
    lg_taken : map snd (taken s) ≡ₚ concat (map got (workers s)) ++ begun s;
    lg_begun : begun s ≡ₚ concat (map running (workers s)) ++ finished s
  }.

  Lemma init_logs : logs (init c ops).
  Proof.
    split; cbn; try done; [by exists []|]. intros q l Hl. apply lookup_replicate in Hl as [-> _]. done.
  Qed.

  Lemma enqueue_fifo s q t : (forall q l, queues s !! q = Some l -> through q (taken s) ++ l = through q (put s)) ->
    forall q' l, queues (enqueue q t s) !! q' = Some l -> through q' (taken s) ++ l = through q' (put s ++ [(q, t)]).
  Proof.
    intros H q' l. cbn. destruct (decide (q' = q)) as [->|Hne].
    - rewrite list_lookup_alter. destruct (queues s !! q) as [l0|] eqn:E; [|done]. cbn. intros [= <-]. rewrite through_app, through_same, app_assoc. by rewrite (H q l0).
    - rewrite list_lookup_alter_ne by done. intros Hl. rewrite through_app, through_other by done. rewrite app_nil_r. by apply H.
  Qed.

  Lemma dequeue_fifo s q t l0 : (forall q l, queues s !! q = Some l -> through q (taken s) ++ l = through q (put s)) ->
    queues s !! q = Some (t :: l0) ->
    forall q' l, queues (dequeue q t s) !! q' = Some l -> through q' (taken s ++ [(q, t)]) ++ l = through q' (put s).
  Proof.
    intros H Hq q' l. cbn. destruct (decide (q' = q)) as [->|Hne].
    - rewrite list_lookup_alter, Hq. cbn. intros [= <-]. rewrite through_app, through_same, <- app_assoc. by rewrite <- (H q _ Hq).
    - rewrite list_lookup_alter_ne by done. intros Hl. rewrite through_app, through_other by done. rewrite app_nil_r. by apply H.
  Qed.

  Lemma take_logs s w q t l x : shape c s -> logs s -> workers s !! w = Some x -> got x = [] -> running x = [] -> queues s !! q = Some (t :: l) ->
    logs (set_worker w (WGot t) (dequeue q t s)).
  Proof.
    intros Hs [H1 H2 H3 H4 H5 H6 H7] Hw Hg Hr Hq. split; cbn; try done.
    - by eapply dequeue_fifo.
    - apply Forall_app_2; [done|]. apply Forall_singleton. cbn. apply lookup_lt_Some in Hq. by rewrite (sh_queues _ _ Hs) in Hq.
    - pose proof (held_insert got (workers s) w x (WGot t) Hw) as Hp. rewrite Hg in Hp. cbn in Hp. rewrite app_nil_r in Hp.
      rewrite map_app, H6, Hp. cbn. rewrite <- !app_assoc. apply Permutation_app_head. apply Permutation_app_comm.
    - by rewrite (held_same running (workers s) w x (WGot t) Hw).
  Qed.

  Lemma quiet_logs s w x y : logs s -> workers s !! w = Some x -> got x = got y -> running x = running y -> logs (set_worker w y s).
  Proof.
    intros [H1 H2 H3 H4 H5 H6 H7] Hw Hg Hr. split; cbn; try done.
    - by rewrite (held_same got (workers s) w x y Hw).
    - by rewrite (held_same running (workers s) w x y Hw).
  Qed.

  Lemma step_logs l s s' : shape c s -> logs s -> step c l s = Some s' -> logs s'.
  Proof.
    intros Hs Hl H%step_cases. destruct (Hl) as [H1 H2 H3 H4 H5 H6 H7]. pose proof (sh_client _ _ Hs) as Hc. unfold client_ok in Hc.
    destruct H.
    - rewrite H in *. split; cbn; try done.
      + by rewrite map_app, concat_app, app_nil_r.
      + by rewrite map_app, concat_app, app_nil_r.
    - rewrite H in *. by split.
    - rewrite H in *. by split.
    - rewrite H in *. split; try done. destruct H1 as (pre & -> & H1). exists (pre ++ [Push t]). cbn. rewrite H0, <- app_assoc. split; [done|].
      rewrite pushes_app, <- H1, app_nil_r. done.
    - rewrite H in *. split; try done. destruct H1 as (pre & -> & H1). exists (pre ++ [Push t]). cbn. rewrite H0, <- app_assoc. split; [done|].
      rewrite pushes_app, <- H1, app_nil_r. done.
    - rewrite H in *. split; try done. destruct H1 as (pre & -> & H1). exists (pre ++ [Push t]). cbn. rewrite H0, <- app_assoc. split; [done|].
      rewrite pushes_app, <- H1, app_nil_r. done.
    - rewrite H in *. split; try done; cbn; [|by rewrite H]. rewrite H. destruct H1 as (pre & -> & H1). exists (pre ++ [Get t]). rewrite H0, <- app_assoc. split; [done|].
      rewrite pushes_app, <- H1. cbn. by rewrite !app_nil_r.
    - rewrite H in *. by split.
    - rewrite H in *. split; cbn -[Nat.modulo]; try done.
      + destruct H1 as (pre & -> & H1). exists pre. split; [done|]. rewrite map_app, app_nil_r. done.
      + by apply enqueue_fifo.
      + apply Forall_app_2; [done|]. apply Forall_singleton. cbn -[Nat.modulo]. pose proof (sh_sizes _ _ Hs) as Hz. unfold sizes in Hz. rewrite H in Hz.
        destruct Hz as [_ ->]. by apply mod_queue.
    - rewrite H in *. by split.
    - rewrite H in *. pose proof (sh_sizes _ _ Hs) as Hz. unfold sizes in Hz. rewrite H in Hz. lia.
    - rewrite H in *. by split.
    - rewrite H in *. split; cbn; try done.
      + destruct H1 as (pre & -> & H1). exists pre. split; [done|]. rewrite map_app, app_nil_r. done.
      + by apply enqueue_fifo.
      + apply Forall_app_2; [done|]. apply Forall_singleton. done.
    - rewrite H in *. by split.
    - apply waiting_elem in H0 as [Hw Hq]. assert (Hl' : logs (set_worker n WPop s)) by (by eapply quiet_logs). destruct Hl'. cbn in *. rewrite H in *. by split.
    - rewrite H in *. by split.
    - rewrite H in *. by split.
    - rewrite H in *. split; cbn; try done; by rewrite held_wake.
    - rewrite H in *. by split.
    - rewrite H in *. by split.
    - by eapply take_logs.
    - by eapply quiet_logs.
    - by eapply quiet_logs.
    - split; cbn; try done.
      + pose proof (held_insert got (workers s) w (WGot t) (WRun t) H) as Hp. cbn in Hp. rewrite app_nil_r in Hp.
        rewrite H6, <- Hp, <- app_assoc. apply Permutation_app_head. apply Permutation_app_comm.
      + pose proof (held_insert running (workers s) w (WGot t) (WRun t) H) as Hp. cbn in Hp. rewrite app_nil_r in Hp.
        rewrite H7, Hp, <- !app_assoc. apply Permutation_app_head. apply Permutation_app_comm.
    - split; cbn; try done.
      + rewrite (held_same got (workers s) w (WRun t) _ H); [done|]. by destruct (multi c).
      + pose proof (held_insert running (workers s) w (WRun t) (if multi c then WLoop else WPop) H) as Hp.
        replace (running (if multi c then WLoop else WPop)) with (@nil nat) in Hp by by destruct (multi c). cbn in Hp. rewrite app_nil_r in Hp.
        rewrite H7, <- Hp, <- app_assoc. apply Permutation_app_head. apply Permutation_app_comm.
    - eapply quiet_logs; [done|done|by destruct (making _)..].
    - by eapply take_logs.
    - by eapply quiet_logs.
    - by eapply quiet_logs.
    - by eapply quiet_logs.
    - done.
  Qed.
End logs.
