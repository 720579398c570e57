From stdpp Require Import list list_numbers.
From Verif.Base Require Import ListLemmas.
From Verif.Pool Require Import Model Spec Proofs ProofsLogs.

Lemma sum_insert {A} (f : A -> nat) l w x y : l !! w = Some x -> list_sum (map f (<[w := y]> l)) + f x = list_sum (map f l) + f y.
Proof.
  revert w. induction l as [|z l IH]; intros [|w] H; cbn in *; [done..| |].
  - injection H as <-. unfold list_sum in *. lia.
  - specialize (IH w H). change (f z + list_sum (map f (<[w := y]> l)) + f x = f z + list_sum (map f l) + f y). lia.
Qed.

Lemma sum_alter {A} (f : A -> nat) g l w x : l !! w = Some x -> list_sum (map f (alter g w l)) + f x = list_sum (map f l) + f (g x).
Proof.
  revert w. induction l as [|z l IH]; intros [|w] H; cbn in *; [done..| |].
  - injection H as <-. unfold list_sum in *. lia.
  - specialize (IH w H). change (f z + list_sum (map f (alter g w l)) + f x = f z + list_sum (map f l) + f (g x)). lia.
Qed.

Section time.
  Context (c : conf) (Hnum : 0 < num c).
  Implicit Types s : state.
  Notation nq := (num_queues c).

  (** How many steps are left at most. *)
  Definition t_item : nat := num c + 7.

  Definition t_worker (x : worker) : nat :=
    match x with
    | WGot _ => num c + 7
    | WRun _ => num c + 6
    | WLoop => num c + 5
    | WTry N i => (N - i) + 4
    | WPop => 3
    | WWait => 1
    | WExit | WRace => 0
    end.

  Definition t_finish (q : nat) : nat := (nq - q) * (2 * num c + 2) + num c + 2.

  Definition t_op (o : op) : nat := match o with Push _ => num c * cycles c + t_item + 6 | Get _ => 1 end.

  Definition t_rest (ops : list op) : nat := t_finish 0 + 1 + list_sum (map t_op ops).

  Definition t_client (x : client) (ops : list op) : nat :=
    match x with
    | CMake k => 5 * (num c - k) + t_rest ops + 1
    | CMade k => 5 * (num c - S k) + t_rest ops + 2
    | CRun => t_rest ops
    | CTry _ _ i => t_rest ops + t_item + 5 + (num c * cycles c - i)
    | CPush _ _ => t_rest ops + t_item + 4
    | CNotify _ => t_rest ops + 3
    | CFinish q => t_finish q
    | CNotifyAll q => t_finish (S q) + 2 * num c + 1
    | CJoin k => (num c - k) + 1
    | CEnd => 0
    | CUndefined => 0
    end.

  Definition time s : nat := t_client (at_client s) (todo s) + list_sum (map t_worker (workers s)) + t_item * list_sum (map length (queues s)).

  Lemma sum_wake q l : list_sum (map t_worker (imap (fun w x => wake c q (w, x)) l)) <= list_sum (map t_worker l) + 2 * length l.
  Proof.
    assert (H : forall k, list_sum (map t_worker (imap (fun w x => wake c q (k + w, x)) l)) <= list_sum (map t_worker l) + 2 * length l); [|apply (H 0)].
    induction l as [|x l IH]; intros k; cbn; [lia|]. specialize (IH (S k)).
    rewrite (imap_ext _ (fun w x => wake c q (S k + w, x))) by (intros; cbn; by rewrite Nat.add_succ_r).
    assert (t_worker (wake c q (k + 0, x)) <= t_worker x + 2); [|unfold list_sum in *; lia].
    unfold wake, is_waiting. cbn. destruct x; try lia. case_match; cbn; lia.
  Qed.

  Lemma t_finish_S q : q < nq -> t_finish q = t_finish (S q) + 2 * num c + 2.
  Proof. intros H. unfold t_finish. replace (nq - q) with (S (nq - S q)) by lia. lia. Qed.

  Lemma take_time s q t l w x : queues s !! q = Some (t :: l) -> workers s !! w = Some x -> 3 <= t_worker x ->
    time (set_worker w (WGot t) (dequeue q t s)) < time s.
  Proof.
    intros Hq Hw Hx. unfold time. cbn [at_client todo workers queues set_worker dequeue].
    pose proof (sum_insert t_worker (workers s) w x (WGot t) Hw) as H1. pose proof (sum_alter length tail (queues s) q _ Hq) as H2.
    cbn in H1, H2. unfold t_item. nia.
  Qed.

  Lemma put_time s q t l : queues s !! q = Some l -> t_rest (todo s) + t_item + 4 <= t_client (at_client s) (todo s) ->
    time (set_client (CNotify q) (enqueue q t s)) < time s.
  Proof.
    intros Hq Hc. unfold time. cbn [at_client todo workers queues set_client enqueue t_client].
    pose proof (sum_alter length (fun l => l ++ [t]) (queues s) q l Hq) as H2. cbn beta in H2. rewrite app_length in H2. cbn [length] in H2. nia.
  Qed.

  Lemma worker_time s w x y : workers s !! w = Some x -> t_worker y < t_worker x -> time (set_worker w y s) < time s.
  Proof.
    intros Hw Hx. unfold time. cbn [at_client todo workers queues set_worker].
    pose proof (sum_insert t_worker (workers s) w x y Hw) as H1. lia.
  Qed.

  Lemma step_time l s s' : shape c s -> step c l s = Some s' ->
    match l with Spurious _ => time s' = time s + 2 | _ => time s' < time s end.
  Proof.
    intros Hs H%step_cases; [|done]. pose proof (sh_client _ _ Hs) as Hc. unfold client_ok in Hc.
    pose proof (sh_sizes _ _ Hs) as Hz. unfold sizes in Hz.
    assert (Hqs : forall q, q < nq -> exists l, queues s !! q = Some l) by (intros q Hq; apply lookup_lt_is_Some_2; by rewrite (sh_queues _ _ Hs)).
    destruct H.
    all: try (unfold time; cbn [at_client todo workers queues set_client set_todo set_workers next_op]; rewrite H in *).
    - cbn [t_client]. rewrite map_app, list_sum_app. cbn. lia.
    - cbn [t_client]. lia.
    - cbn [t_client]. lia.
    - cbn [t_client]. rewrite H0. unfold t_rest. cbn [map list_sum fold_right t_op]. unfold t_item. fold (list_sum (map t_op ops)). lia.
    - cbn [t_client]. rewrite H0. unfold t_rest. cbn [map list_sum fold_right t_op]. unfold t_item. fold (list_sum (map t_op ops)). lia.
    - cbn [t_client]. rewrite H0. unfold t_rest. cbn [map list_sum fold_right t_op]. unfold t_item. fold (list_sum (map t_op ops)). lia.
    - cbn [t_client]. rewrite H0. unfold t_rest. cbn [map list_sum fold_right t_op]. unfold t_item. fold (list_sum (map t_op ops)). lia.
    - cbn [t_client]. rewrite H0. unfold t_rest. cbn [map list_sum fold_right t_op]. unfold t_item. lia.
    - destruct Hz as [_ Hz]. destruct (Hqs ((idx + i) mod size s)) as [l Hl]; [rewrite Hz; by apply mod_queue|].
      pose proof (put_time s _ t l Hl) as Hp. rewrite H in Hp. specialize (Hp ltac:(cbn; lia)). unfold time in Hp. rewrite H in Hp. exact Hp.
    - cbn [t_client]. destruct Hz as [_ Hz]. rewrite Hz in *. lia.
    - cbn [t_client]. lia.
    - cbn [t_client]. destruct Hz as [_ Hz]. rewrite Hz in *. lia.
    - destruct (Hqs q Hc) as [l Hl].
      pose proof (put_time s _ t l Hl) as Hp. rewrite H in Hp. specialize (Hp ltac:(cbn; lia)). unfold time in Hp. rewrite H in Hp. exact Hp.
    - cbn [t_client]. lia.
    - apply waiting_elem in H0 as [Hw _]. pose proof (sum_insert t_worker (workers s) n WWait WPop Hw) as H1. cbn [t_client workers set_worker]. cbn [t_worker] in H1. cbn [todo queues set_worker t_client]. lia.
    - cbn [t_client workers queues set_fin todo]. rewrite (t_finish_S q) by done. lia.
    - cbn [t_client]. unfold t_finish. lia.
    - cbn [t_client]. pose proof (sum_wake q (workers s)). lia.
    - cbn [t_client]. lia.
    - cbn [t_client]. lia.
    - eapply take_time; [done|done|]. cbn [list_sum fold_right t_worker t_op map]. lia.
    - eapply worker_time; [done|]. cbn [list_sum fold_right t_worker t_op map]. lia.
    - eapply worker_time; [done|]. cbn [list_sum fold_right t_worker t_op map]. lia.
    - pose proof (worker_time s w _ (WRun t) H) as Hp. apply Hp. cbn [list_sum fold_right t_worker t_op map]. lia.
    - pose proof (worker_time s w _ (if multi c then WLoop else WPop) H) as Hp. apply Hp. destruct (multi c); cbn; lia.
    - eapply worker_time; [done|]. pose proof (shape_ok c s w _ Hs H) as [Hm _]. rewrite Hm. cbn.
      assert (size s <= num c) by (destruct (at_client s); cbn in Hm; try done; lia). lia.
    - pose proof (shape_ok c s w _ Hs H) as (HN & _ & _). eapply take_time; [done|done|]. cbn. lia.
    - eapply worker_time; [done|]. cbn. lia.
    - eapply worker_time; [done|]. cbn. lia.
    - unfold time. cbn [at_client todo workers queues set_worker]. pose proof (sum_insert t_worker (workers s) w _ WPop H) as H1. cbn in H1. cbn. lia.
  Qed.

  Lemma run_time ls : forall s s', shape c s -> run c ls s = Some s' -> length ls + time s' <= time s + 3 * spurious ls.
  Proof.
    induction ls as [|l ls IH]; cbn [run]; intros s s' Hs H; [injection H as <-; cbn; lia|].
    destruct (step c l s) as [s1|] eqn:E; [|done]. pose proof (step_time l s s1 Hs E) as Ht.
    assert (Hs1 : shape c s1) by (by eapply step_shape). specialize (IH s1 s' Hs1 H). unfold spurious in *. cbn [length List.filter].
    destruct l; cbn [length]; lia.
  Qed.
End time.
