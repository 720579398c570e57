(** What is claimed of thread pools (C38). *)
From stdpp Require Import list.
From Verif.Pool Require Import Model.

(** The tasks pushed, in order. *)
Definition pushes (ops : list op) : list nat := omap (fun o => match o with Push t => Some t | Get _ => None end) ops.

(** No task is pushed twice (each push makes a new task), and results are asked for after the task has been pushed. *)
Definition script_ok (ops : list op) : Prop :=
  NoDup (pushes ops) /\ forall a t b, ops = a ++ Get t :: b -> t ∈ pushes a.

(** The tasks which went through a queue, in order. *)
Definition through (q : nat) (log : list (nat * nat)) : list nat := map snd (filter (fun x => x.1 = q) log).

Definition spurious (ls : list label) : nat := length (List.filter (fun l => match l with Spurious _ => true | _ => false end) ls).

(** A thread which is not asleep can go on. *)
Definition can_go_on (c : conf) (s : state) : Prop :=
  exists l s', (forall w, l <> Spurious w) /\ step c l s = Some s'.
