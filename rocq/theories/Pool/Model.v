(** Model of thread_pool and task_queue, Source/sequoia/Core/Concurrency/ConcurrencyModels.hpp.

    The threads are the client, which makes the pool, pushes tasks, waits for results, and joins; and the workers.  They
    take turns: a label says whose turn it is, and settles what is not determined otherwise.  What happens under the
    protection of the mutex of a queue is one step, so that locking never has to wait; trying to lock may fail at any time,
    as it does if another thread holds the mutex or spuriously.  Sleeping threads may wake up at any time.  All data shared
    between threads, apart from the number of threads (see [WRace]), is protected by these mutexes or is only used by the
    client; therefore it suffices to consider interleavings.  Tasks are numbers; running one takes some time, and comes to
    an end, possibly with an exception, which packaged_task stores as the result.  [m_QueueIndex] does not overflow. *)
From stdpp Require Import list.

(** What the client does with a pool once it is made; in the end it joins, L269-L273 or L218-L221.  [Get] is the call of
    [get] on the future of a task. *)
Inductive op := Push (t : nat) | Get (t : nat).

Record conf := Conf {
  multi : bool;       (* MultiPipeline, L195 *)
  num : nat;          (* numThreads, L201, L207 *)
  cycles : nat        (* push_cycles, L134, L207 *)
}.

(** Where a worker is. *)
Inductive worker :=
  | WPop               (* about to lock the mutex in pop(), L101 *)
  | WWait              (* waits, L102 *)
  | WGot (t : nat)     (* has got a task, but has not yet begun it *)
  | WRun (t : nat)     (* runs a task *)
  | WLoop              (* about to read the size of m_Threads, L306 *)
  | WTry (N i : nat)   (* about to try to lock in pop(std::try_to_lock), L309 *)
  | WExit              (* the thread has ended *)
  | WRace.             (* has read the size of m_Threads while the client may change it: undefined behaviour *)

(** Where the client is. *)
Inductive client :=
  | CMake (k : nat)          (* about to start thread [k], L330 *)
  | CMade (k : nat)          (* thread [k] runs, but m_Threads has not grown yet *)
  | CRun                     (* about to do the next thing *)
  | CTry (t idx i : nat)     (* about to try to lock in push(task, std::try_to_lock), L243 *)
  | CPush (t q : nat)        (* about to lock in push(task), L248, L252 *)
  | CNotify (q : nat)        (* about to call notify_one, L67, L82 *)
  | CFinish (q : nat)        (* about to lock in finish(), L337, L339 *)
  | CNotifyAll (q : nat)     (* about to call notify_all, L57 *)
  | CJoin (k : nat)          (* about to join thread [k], L341 *)
  | CEnd                     (* has joined *)
  | CUndefined.              (* undefined behaviour *)

Record state := State {
  queues : list (list nat);       (* m_Q *)
  fin : list bool;                (* m_Finished *)
  workers : list worker;
  at_client : client;
  todo : list op;
  qindex : nat;                   (* m_QueueIndex *)
  size : nat;                     (* the size of m_Threads *)
  (* what has happened so far: tasks put into and taken from queues, begun, and finished *)
  put : list (nat * nat);
  taken : list (nat * nat);
  begun : list nat;
  finished : list nat
}.

Section pool.
  Context (c : conf).

  Definition num_queues : nat := if multi c then num c else 1.                 (* L210 *)

  (** The queue a worker waits at. *)
  Definition own (w : nat) : nat := if multi c then w else 0.                  (* L293, L314, L318 *)

  Definition init (ops : list op) : state :=
    State (replicate num_queues []) (replicate num_queues false) [] (CMake 0) ops 0 0 [] [] [] [].

  Definition set_worker (w : nat) (x : worker) (s : state) : state :=
    State (queues s) (fin s) (<[w := x]> (workers s)) (at_client s) (todo s) (qindex s) (size s) (put s) (taken s) (begun s) (finished s).

  Definition set_client (x : client) (s : state) : state :=
    State (queues s) (fin s) (workers s) x (todo s) (qindex s) (size s) (put s) (taken s) (begun s) (finished s).

  Definition set_workers (l : list worker) (s : state) : state :=
    State (queues s) (fin s) l (at_client s) (todo s) (qindex s) (size s) (put s) (taken s) (begun s) (finished s).

  Definition set_todo (l : list op) (s : state) : state :=
    State (queues s) (fin s) (workers s) (at_client s) l (qindex s) (size s) (put s) (taken s) (begun s) (finished s).

  Definition set_fin (q : nat) (s : state) : state :=
    State (queues s) (<[q := true]> (fin s)) (workers s) (at_client s) (todo s) (qindex s) (size s) (put s) (taken s) (begun s) (finished s).

  (** m_Q.push, L64, L75. *)
  Definition enqueue (q t : nat) (s : state) : state :=
    State (alter (fun l => l ++ [t]) q (queues s)) (fin s) (workers s) (at_client s) (todo s) (qindex s) (size s)
      (put s ++ [(q, t)]) (taken s) (begun s) (finished s).

  (** L115-L120. *)
  Definition dequeue (q t : nat) (s : state) : state :=
    State (alter tail q (queues s)) (fin s) (workers s) (at_client s) (todo s) (qindex s) (size s)
      (put s) (taken s ++ [(q, t)]) (begun s) (finished s).

  Definition begin (t : nat) (s : state) : state :=
    State (queues s) (fin s) (workers s) (at_client s) (todo s) (qindex s) (size s) (put s) (taken s) (begun s ++ [t]) (finished s).

  Definition finish (t : nat) (s : state) : state :=
    State (queues s) (fin s) (workers s) (at_client s) (todo s) (qindex s) (size s) (put s) (taken s) (begun s) (finished s ++ [t]).

  Definition is_waiting (q : nat) (wx : nat * worker) : bool :=
    match wx.2 with WWait => own wx.1 =? q | _ => false end.

  Definition waiting (q : nat) (s : state) : list nat := map fst (List.filter (is_waiting q) (imap pair (workers s))).

  Definition wake (q : nat) (wx : nat * worker) : worker := if is_waiting q wx then WPop else wx.2.

  (** The constructor is still at work, and may change m_Threads. *)
  Definition making (x : client) : bool := match x with CMake _ | CMade _ => true | _ => false end.

  (** The turn of worker [w]; [ok]: trying to lock succeeds. *)
  Definition do_worker (w : nat) (ok : bool) (s : state) : option state :=
    match workers s !! w with
    | Some WPop =>                                                             (* L99-L105 *)
        match queues s !! own w, fin s !! own w with
        | Some (t :: _), _ => Some (set_worker w (WGot t) (dequeue (own w) t s))
        | Some [], Some true => Some (set_worker w WExit s)                    (* L297, L324 *)
        | Some [], Some false => Some (set_worker w WWait s)
        | _, _ => None
        end
    | Some (WGot t) => Some (set_worker w (WRun t) (begin t s))                (* L295, L322 *)
    | Some (WRun t) => Some (set_worker w (if multi c then WLoop else WPop) (finish t s))
    | Some WLoop =>                                                            (* L306 *)
        Some (set_worker w (if making (at_client s) then WRace else WTry (size s) 0) s)
    | Some (WTry N i) =>                                                       (* L307-L314 *)
        if i <? N then
          match queues s !! ((w + i) mod N) with
          | Some (t :: _) =>
              if ok then Some (set_worker w (WGot t) (dequeue ((w + i) mod N) t s)) else Some (set_worker w (WTry N (S i)) s)
          | Some [] => Some (set_worker w (WTry N (S i)) s)
          | None => None
          end
        else Some (set_worker w WPop s)
    | _ => None
    end.

  (** The turn of the client; [ok]: trying to lock succeeds; [n] is the thread woken up by notify_one, if any waits. *)
  Definition do_client (ok : bool) (n : nat) (s : state) : option state :=
    match at_client s with
    | CMake k =>                                                               (* L288, L330 *)
        if k <? num c then Some (set_client (CMade k) (set_workers (workers s ++ [WPop]) s))
        else Some (set_client CRun s)
    | CMade k =>
        Some (State (queues s) (fin s) (workers s) (CMake (S k)) (todo s) (qindex s) (S (size s)) (put s) (taken s) (begun s) (finished s))
    | CRun =>
        match todo s with
        | Push t :: ops =>
            if multi c then
              let s' := State (queues s) (fin s) (workers s) (at_client s) ops (S (qindex s)) (size s) (put s) (taken s) (begun s) (finished s) in
              if size s <=? qindex s then                                      (* L239 *)
                Some (set_client (CTry t (qindex s) 0) s')
              else Some (set_client (CPush t (qindex s mod size s)) s')
            else Some (set_client (CPush t 0) (set_todo ops s))                (* L252 *)
        | Get t :: ops => if decide (t ∈ finished s) then Some (set_todo ops s) else None
        | [] => Some (set_client (CFinish 0) s)
        end
    | CTry t idx i =>                                                          (* L241-L248 *)
        if i <? size s * cycles c then
          if ok then Some (set_client (CNotify ((idx + i) mod size s)) (enqueue ((idx + i) mod size s) t s))
          else Some (set_client (CTry t idx (S i)) s)
        else if size s =? 0 then Some (set_client CUndefined s)                (* L248: remainder of a division by zero *)
        else Some (set_client (CPush t (idx mod size s)) s)
    | CPush t q => Some (set_client (CNotify q) (enqueue q t s))               (* L60-L67 *)
    | CNotify q =>
        match waiting q s with
        | [] => Some (set_client CRun s)
        | l => if decide (n ∈ l) then Some (set_client CRun (set_worker n WPop s)) else None
        end
    | CFinish q =>                                                             (* L336-L339 *)
        if q <? num_queues then Some (set_client (CNotifyAll q) (set_fin q s)) else Some (set_client (CJoin 0) s)
    | CNotifyAll q => Some (set_client (CFinish (S q)) (set_workers (imap (fun w x => wake q (w, x)) (workers s)) s))
    | CJoin k =>                                                               (* L341 *)
        if k <? size s then
          match workers s !! k with
          | Some WExit => Some (set_client (CJoin (S k)) s)
          | _ => None
          end
        else Some (set_client CEnd s)
    | CEnd | CUndefined => None
    end.

  (** Whose turn it is. *)
  Inductive label := Client (ok : bool) (n : nat) | Worker (w : nat) (ok : bool) | Spurious (w : nat).

  Definition step (l : label) (s : state) : option state :=
    match l with
    | Client ok n => do_client ok n s
    | Worker w ok => do_worker w ok s
    | Spurious w => match workers s !! w with Some WWait => Some (set_worker w WPop s) | _ => None end
    end.

  Fixpoint run (ls : list label) (s : state) : option state :=
    match ls with
    | [] => Some s
    | l :: ls => match step l s with Some s => run ls s | None => None end
    end.
End pool.
