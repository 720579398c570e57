(** C38: thread pools. *)
From stdpp Require Import list.
From Verif.Pool Require Import Model Spec Proofs ProofsLogs ProofsAlive ProofsResults ProofsTime ProofsOrder.

(** No task is begun twice, and only tasks which have been pushed are. *)
Theorem C38_at_most_once : forall c ops ls s, 0 < num c -> NoDup (pushes ops) -> run c ls (init c ops) = Some s ->
  NoDup (begun s) /\ forall t, t ∈ begun s -> t ∈ pushes ops.
Proof. intros c ops ls s H1 H2 H3. exact (once c H1 ops ls s H3 H2). Qed.
Print Assumptions C38_at_most_once.

(** When join returns, every task has been begun once and finished once, and the threads have ended. *)
Theorem C38_join : forall c ops ls s, 0 < num c -> run c ls (init c ops) = Some s -> at_client s = CEnd ->
  begun s ≡ₚ pushes ops /\ finished s ≡ₚ pushes ops /\ workers s = replicate (num c) WExit.
Proof. intros c ops ls s H1 H2. exact (joined c H1 ops ls s H2). Qed.
Print Assumptions C38_join.

(** [get] returns only once the task is finished. *)
Theorem C38_get : forall c ops ls s, 0 < num c -> run c ls (init c ops) = Some s ->
  exists pre, ops = pre ++ todo s /\ forall t, Get t ∈ pre -> t ∈ finished s.
Proof. intros c ops ls s H1 H2. exact (got_results c H1 ops ls s H2). Qed.
Print Assumptions C38_get.

(** Whatever has happened, either join has returned, or a thread can take a step without having to be woken up
    spuriously. *)
Theorem C38_no_deadlock : forall c ops ls s, 0 < num c -> script_ok ops -> run c ls (init c ops) = Some s ->
  at_client s = CEnd \/ can_go_on c s.
Proof. intros c ops ls s H1 [_ H2] H3. exact (never_stuck c H1 ops ls s H3 H2). Qed.
Print Assumptions C38_no_deadlock.

(** Not counting spurious wake-ups, and what they cause, the number of steps is bounded; so join returns at last. *)
Theorem C38_terminates : forall c ops, 0 < num c ->
  exists bound, forall ls s, run c ls (init c ops) = Some s -> length ls <= bound + 3 * spurious ls.
Proof. exact terminates. Qed.
Print Assumptions C38_terminates.

(** Tasks are put into queues in the order in which they are pushed, and leave each queue in the order in which they were put
    into it. *)
Theorem C38_queues_fifo : forall c ops ls s, 0 < num c -> run c ls (init c ops) = Some s ->
  map snd (put s) `prefix_of` pushes ops /\ forall q, through q (taken s) `prefix_of` through q (put s).
Proof. intros c ops ls s H1 H2. exact (taken_fifo c H1 ops ls s H2). Qed.
Print Assumptions C38_queues_fifo.

(** With one thread, tasks begin in the order in which they are pushed. *)
Theorem C38_start_order_partial : forall c ops ls s, num c = 1 -> run c ls (init c ops) = Some s -> begun s `prefix_of` pushes ops.
Proof. intros c ops ls s H. exact (one_fifo c H ops ls s). Qed.
Print Assumptions C38_start_order_partial.

(** No thread reads the number of threads while the constructor changes it, nor is there any division by zero. *)
Theorem C38_no_undefined_behaviour : forall c ops ls s, 0 < num c -> run c ls (init c ops) = Some s ->
  at_client s <> CUndefined /\ WRace ∉ workers s.
Proof. intros c ops ls s H1 H2. exact (no_undefined c H1 ops ls s H2). Qed.
Print Assumptions C38_no_undefined_behaviour.

(** Two threads with two queues; the second steals the second task, whose result is asked for, from the first. *)
Definition demo_ops : list op := [Push 7; Push 8; Push 9; Get 9].
Definition demo_conf : conf := Conf true 2 1.
Definition demo : list label :=
  replicate 5 (Client true 0) ++ replicate 6 (Client true 0) ++          (* 7 in queue 0, 8 in queue 1 *)
  replicate 3 (Client true 0) ++                                        (* 9 in queue 0 *)
  replicate 3 (Worker 1 true) ++                                        (* 8 is run *)
  [Worker 0 true] ++                                                    (* 7 is taken *)
  replicate 6 (Worker 1 true) ++                                        (* 9 is stolen and run *)
  [Client true 0] ++ replicate 6 (Client true 0) ++                     (* the result; finish *)
  replicate 7 (Worker 0 true) ++ replicate 4 (Worker 1 true) ++ replicate 3 (Client true 0).
Example C38_example : 0 < num demo_conf /\ NoDup (pushes demo_ops) /\
  option_map (fun s => (at_client s, begun s, finished s, put s, taken s)) (run demo_conf demo (init demo_conf demo_ops))
    = Some (CEnd, [8; 9; 7], [8; 9; 7], [(0, 7); (1, 8); (0, 9)], [(1, 8); (0, 7); (0, 9)]).
Proof. split; [cbn; lia|]. split; [|by vm_compute]. apply (bool_decide_unpack _). by vm_compute. Qed.
Example C38_example_script : script_ok demo_ops.
Proof.
  split; [apply (bool_decide_unpack _); by vm_compute|]. intros a t b H.
  destruct a as [|? [|? [|? [|? [|? ?]]]]]; cbn in H; injection H as; subst; try discriminate; try (apply (bool_decide_unpack _); by vm_compute).
Qed.
Example C38_example_order : option_map (fun s => (num (Conf false 1 1), begun s))
  (run (Conf false 1 1) (replicate 9 (Client true 0) ++ replicate 5 (Worker 0 true)) (init (Conf false 1 1) [Push 3; Push 4])) = Some (1, [3; 4]).
Proof. by vm_compute. Qed.

(** The task first put into a queue may begin last: a thread may be held up between taking and running it. *)
Theorem C38_start_order_refuted : exists c ops ls s t u rest, 0 < num c /\ script_ok ops /\ run c ls (init c ops) = Some s /\
  map snd (put s) = [t; u] /\ through 0 (put s) = [t; u] /\ begun s = u :: t :: rest.
Proof.
  exists (Conf false 2 1), [Push 0; Push 1], (replicate 11 (Client true 0) ++ [Worker 0 true; Worker 1 true; Worker 1 true; Worker 0 true]).
  eexists _, 0, 1, []. split; [cbn; lia|]. split; [|split; [by vm_compute|by vm_compute]].
  split; [apply (bool_decide_unpack _); by vm_compute|]. intros a t b H. destruct a as [|? [|? [|? ?]]]; discriminate.
Qed.
Print Assumptions C38_start_order_refuted.

(** Without threads, pushing divides by zero, or join returns with tasks left. *)
Theorem C38_no_threads_refuted :
  (exists c ops ls s, num c = 0 /\ script_ok ops /\ run c ls (init c ops) = Some s /\ at_client s = CUndefined) /\
  (exists c ops ls s, num c = 0 /\ script_ok ops /\ run c ls (init c ops) = Some s /\ at_client s = CEnd /\ pushes ops <> [] /\ begun s = []).
Proof.
  assert (Hok : script_ok [Push 0]).
  { split; [apply (bool_decide_unpack _); by vm_compute|]. intros a t b H. destruct a as [|? [|? ?]]; discriminate. }
  split.
  - exists (Conf true 0 1), [Push 0], (replicate 3 (Client true 0)). eexists _. split; [done|]. split; [done|]. split; [by vm_compute|done].
  - exists (Conf false 0 1), [Push 0], (replicate 9 (Client true 0)). eexists _. split; [done|]. split; [done|]. split; [by vm_compute|]. done.
Qed.
Print Assumptions C38_no_threads_refuted.
