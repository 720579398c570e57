(** C08: the property theorems about monotonic sequences. *)
From stdpp Require Import list.
From Verif.Base Require Import Outcome Order ListLemmas.
From Verif.StaticDS Require Import Model ProofsTop.
From Verif.Mono Require Import Model Spec Proofs.

(** C08, construction: accepted exactly if monotonic, and then holding the given list. *)
Theorem monotonic_construction :
  forall (T : Type) (comp : T -> T -> bool) (l : list T),
    (monotonic comp l -> mono_make comp l = Ok l) /\
    (~ monotonic comp l -> mono_make comp l = Throw LogicError).
Proof. exact @mono_make_spec. Qed.
Print Assumptions monotonic_construction.

(** C08: a call is accepted exactly when its result is monotonic, and then does the edit it stands
    for; otherwise it throws. *)
Theorem monotonic_call_accepts_exactly_monotonic_results :
  forall (T : Type) (comp : T -> T -> bool), strict_weak comp ->
    forall (s : list T) (c : mcall T) (s' : list T),
      monotonic comp s -> edit s c s' ->
      (monotonic comp s' -> mono_call comp s c = Ok s') /\
      (~ monotonic comp s' -> mono_call comp s c = Throw LogicError).
Proof. exact @mono_call_spec. Qed.
Print Assumptions monotonic_call_accepts_exactly_monotonic_results.

(** C08: a call that is accepted does nothing but its edit. *)
Theorem monotonic_call_only_edits :
  forall (T : Type) (comp : T -> T -> bool) (s : list T) (c : mcall T) (s' : list T),
    mono_call comp s c = Ok s' -> edit s c s'.
Proof. exact @mono_call_edit. Qed.
Print Assumptions monotonic_call_only_edits.

(** C08: every reachable sequence is monotonic. *)
Theorem monotonic_always :
  forall (T : Type) (comp : T -> T -> bool), strict_weak comp ->
    forall (s : list T) (cs : list (mcall T)) (s' : list T),
      monotonic comp s -> mono_run comp s cs = Ok s' -> monotonic comp s'.
Proof. exact @mono_run_monotonic. Qed.
Print Assumptions monotonic_always.

(** C08 for static_monotonic_sequence: it is the padded list that has to be monotonic. *)
Theorem static_monotonic_construction :
  forall (T : Type) (comp : T -> T -> bool) (d : T) (n : nat) (l : list T),
    length l <= n ->
    (monotonic comp (l ++ replicate (n - length l) d) ->
       static_mono_make comp (Some d) n l = Ok (l ++ replicate (n - length l) d)) /\
    (~ monotonic comp (l ++ replicate (n - length l) d) ->
       static_mono_make comp (Some d) n l = Throw LogicError).
Proof. exact @static_mono_make_spec. Qed.
Print Assumptions static_monotonic_construction.

(** A monotonic list shorter than the array may therefore be rejected. *)
Theorem static_monotonic_accepts_monotonic_lists_refuted :
  exists (comp : nat -> nat -> bool) (n : nat) (l : list nat),
    monotonic comp l /\ length l <= n /\ static_mono_make comp (Some 0) n l = Throw LogicError.
Proof.
  exists (fun x y => Nat.ltb y x), 3, [1;2]. split; [|split; [cbn; lia|by vm_compute]].
  intros [|[|i]] x y Hx Hy; [|done|done]. injection Hx as <-. by injection Hy as <-.
Qed.
Print Assumptions static_monotonic_accepts_monotonic_lists_refuted.

(** A run with the default comparison ([less]: the sequence does not increase): rejected calls change
    nothing. *)
Example monotonic_example :
  strict_weak Nat.ltb /\ mono_make Nat.ltb [9;5;5;2] = Ok [9;5;5;2] /\
  mono_run Nat.ltb [9;5;5;2]
    [MPushBack 3; MPushBack 1; MInsert 1 7; MInsert 2 8; MErase 0; MEraseRange 1 2;
     MMutate 1 3 (fun x => Ok (x + 3)); MMutate 0 2 (fun x => Ok (x + 1))] = Ok [8;6;2;1].
Proof. split; [exact ltb_strict_weak|]. by vm_compute. Qed.
