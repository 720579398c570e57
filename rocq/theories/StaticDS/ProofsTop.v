(** C05-C07: the statements of Properties.v, assembled from Proofs.v. *)
From stdpp Require Import list.
From Verif.Base Require Import Outcome Order ListLemmas.
From Verif.Algo Require Import Model Spec Proofs.
From Verif.StaticDS Require Import Model Spec Proofs.

Lemma ltb_strict_weak : strict_weak Nat.ltb.
Proof.
  split.
  - intros x. apply Nat.ltb_irrefl.
  - intros x y z H1 H2. apply Nat.ltb_lt in H1, H2. apply Nat.ltb_lt. lia.
  - intros x y z H1 H2 H3 H4. apply Nat.ltb_ge in H1, H2, H3, H4.
    split; apply Nat.ltb_ge; lia.
Qed.

Lemma to_array_copies_lemma (I T : Type) (fn : I -> T) (d : I) (n : nat) (l : list I) :
    (length l <= n -> to_array fn (Some d) n l = Ok (fmap fn l ++ replicate (n - length l) (fn d))) /\
    (n < length l -> to_array fn (Some d) n l = Throw OutOfRange).
Proof. split; [apply to_array_default|apply to_array_long]. Qed.

Lemma static_queue_is_fifo_lemma (T : Type) (dflt : option T) (n : nat) (l : list T) :
    length l <= n -> (dflt = None -> length l = n) ->
    exists q, queue_make dflt n l = Ok q /\
      forall cs, history (queue_call n) q cs = history (fifo_call n) l cs.
Proof.
  intros Hl Hd. destruct (queue_make_rep dflt n l Hl Hd) as (q & Hq & Hrep).
  exists q. split; [done|]. intros cs. by apply queue_history.
Qed.

Lemma make_bounds {T} (dflt : option T) n (l : list T) a :
  to_array (fun x => x) dflt n l = Ok a -> length l <= n /\ (dflt = None -> length l = n).
Proof.
  intros H. destruct (decide (n < length l)) as [Hn|Hn].
  { rewrite to_array_long in H by done. done. }
  split; [lia|]. intros ->. destruct (decide (length l < n)); [|lia].
  rewrite to_array_short in H by done. done.
Qed.

Lemma queue_make_inv {T} (dflt : option T) n (l : list T) q :
  queue_make dflt n l = Ok q -> queue_rep n q l.
Proof.
  intros Hq. assert (length l <= n /\ (dflt = None -> length l = n)) as [Hl Hd].
  { unfold queue_make in Hq. destruct (to_array _ dflt n l) eqn:E; try done. by apply make_bounds in E. }
  destruct (queue_make_rep dflt n l Hl Hd) as (q' & Hq' & Hrep).
  assert (q = q') as -> by congruence. done.
Qed.

Lemma stack_make_inv {T} (dflt : option T) n (l : list T) s :
  stack_make dflt n l = Ok s -> stack_rep n s (reverse l).
Proof.
  intros Hq. assert (length l <= n /\ (dflt = None -> length l = n)) as [Hl Hd].
  { unfold stack_make in Hq. destruct (to_array _ dflt n l) eqn:E; try done. by apply make_bounds in E. }
  destruct (stack_make_rep dflt n l Hl Hd) as (q' & Hq' & Hrep).
  assert (s = q') as -> by congruence. done.
Qed.

Lemma static_queue_equality_lemma (T : Type) (eqb : T -> T -> bool) (dflt : option T) (n : nat)
    (l m : list T) cs ds p q p' q' :
    (forall x y, eqb x y = true <-> x = y) ->
    queue_make dflt n l = Ok p -> queue_make dflt n m = Ok q ->
    after (queue_call n) p cs = Some p' -> after (queue_call n) q ds = Some q' ->
    exists l' m' b,
      after (fifo_call n) l cs = Some l' /\ after (fifo_call n) m ds = Some m' /\
      queue_eq eqb n p' q' = Ok b /\ (b = true <-> l' = m').
Proof.
  intros He Hp Hq Hp' Hq'. apply queue_make_inv in Hp, Hq.
  destruct (queue_reach _ _ _ _ Hp _ Hp') as (l' & Hl' & Hr).
  destruct (queue_reach _ _ _ _ Hq _ Hq') as (m' & Hm' & Hs).
  exists l', m', (ranges_equal eqb l' m'). split; [done|]. split; [done|].
  split; [by apply queue_eq_rep|]. by apply ranges_equal_spec.
Qed.

Lemma static_stack_is_lifo_lemma (T : Type) (dflt : option T) (n : nat) (l : list T) :
    length l <= n -> (dflt = None -> length l = n) ->
    exists s, stack_make dflt n l = Ok s /\
      forall cs, history (stack_call n) s cs = history (lifo_call n) (reverse l) cs.
Proof.
  intros Hl Hd. destruct (stack_make_rep dflt n l Hl Hd) as (q & Hq & Hrep).
  exists q. split; [done|]. intros cs. by apply stack_history.
Qed.

Lemma static_stack_equality_lemma (T : Type) (eqb : T -> T -> bool) (dflt : option T) (n : nat)
    (l m : list T) cs ds p q p' q' :
    (forall x y, eqb x y = true <-> x = y) ->
    stack_make dflt n l = Ok p -> stack_make dflt n m = Ok q ->
    after (stack_call n) p cs = Some p' -> after (stack_call n) q ds = Some q' ->
    exists l' m',
      after (lifo_call n) (reverse l) cs = Some l' /\ after (lifo_call n) (reverse m) ds = Some m' /\
      (stack_eq eqb p' q' = true <-> l' = m').
Proof.
  intros He Hp Hq Hp' Hq'. apply stack_make_inv in Hp, Hq.
  destruct (stack_reach _ _ _ _ Hp _ Hp') as (l' & Hl' & Hr).
  destruct (stack_reach _ _ _ _ Hq _ Hq') as (m' & Hm' & Hs).
  exists l', m'. split; [done|]. split; [done|].
  rewrite (stack_eq_rep _ _ _ _ _ _ Hr Hs), ranges_equal_spec by done.
  split; [|by intros ->]. intros E. apply (f_equal reverse) in E. by rewrite !reverse_involutive in E.
Qed.

Lemma static_priority_queue_is_bag_lemma (T : Type) (comp : T -> T -> bool) (d : T) (n : nat) cs :
    strict_weak comp ->
    bag_history comp n [] cs (history (pq_call comp n) (pq_default d n) cs).
Proof. intros Hsw. apply pq_history; [done|]. apply pq_default_rep. Qed.

Lemma pq_reach {T} (comp : T -> T -> bool) n q bag cs :
  strict_weak comp -> pq_rep comp n q bag ->
  forall q', after (pq_call comp n) q cs = Some q' -> exists bag', pq_rep comp n q' bag'.
Proof.
  intros Hsw. unfold after. revert q bag.
  assert (fold_left (fun o c => o ≫= fun s => (pq_call comp n s c).1) cs (@None (pqueue T)) = None)
      as Hnone by (induction cs; done).
  clear Hnone. induction cs as [|c cs IH]; intros q bag Hrep q' Hq'; cbn [fold_left] in *.
  { injection Hq' as <-. eauto. }
  cbn [mbind option_bind] in *.
  assert (fold_left (fun o c => o ≫= fun s => (pq_call comp n s c).1) cs (@None (pqueue T)) = None)
      as Hnone by (clear; induction cs; done).
  destruct c as [v| | | | |]; cbn [pq_call] in *.
  - destruct (pq_push_rep comp Hsw n q bag v Hrep) as [Hok Hfull].
    pose proof (pq_rep_length _ _ _ _ Hrep). pose proof Hrep as (_ & Hle & _).
    destruct (decide (length bag < n)) as [Hlt|Hge].
    + destruct (Hok Hlt) as (s1 & E & Hrep'). rewrite E in Hq'. cbn in *. eauto.
    + rewrite Hfull in Hq' by lia. cbn in *. eauto.
  - destruct bag as [|b bag].
    + unfold pq_pop in Hq'. rewrite decide_True in Hq' by (by apply pq_rep_length in Hrep).
      cbn in Hq'. congruence.
    + destruct (pq_pop_rep comp Hsw n q (b :: bag) Hrep) as (x & q1 & bag' & _ & E & _ & Hrep'); [done|].
      rewrite E in Hq'. cbn in Hq'. eauto.
  - destruct (pq_top q); cbn in Hq'; try congruence; eauto.
  - destruct (pq_top q); cbn in Hq'; try congruence; eauto.
  - eauto.
  - eauto.
Qed.

Lemma static_priority_queue_pops_top_lemma (T : Type) (comp : T -> T -> bool) (d : T) (n : nat) cs q x :
    strict_weak comp ->
    after (pq_call comp n) (pq_default d n) cs = Some q ->
    pq_top q = Ok x ->
    exists q', pq_pop comp q = Ok q' /\
      take (pq_size q) (pq_arr q) ≡ₚ x :: take (pq_size q') (pq_arr q').
Proof.
  intros Hsw Hq Hx.
  destruct (pq_reach comp n _ [] cs Hsw (pq_default_rep comp d n) q Hq) as (bag & Hrep).
  assert (bag <> []) as Hne.
  { intros ->. unfold pq_top in Hx. rewrite decide_True in Hx; [done|]. by apply pq_rep_length in Hrep. }
  destruct (pq_pop_rep comp Hsw n q bag Hrep Hne) as (y & q' & bag' & Hy & Hpop & HP & Hrep').
  assert (y = x) as -> by congruence. exists q'. split; [done|].
  unfold pq_size. destruct Hrep as (_ & _ & -> & _), Hrep' as (_ & _ & -> & _). done.
Qed.

Lemma static_priority_queue_from_list_lemma (T : Type) (comp : T -> T -> bool) (dflt : option T)
    (n : nat) (l : list T) :
    strict_weak comp ->
    length l <= n -> (dflt = None -> length l = n) ->
    (forall d x, dflt = Some d -> x ∈ l -> length l < n -> comp x d = false) ->
    exists q, pq_make comp dflt n l = Ok q /\
      forall cs, bag_history comp n l cs (history (pq_call comp n) q cs).
Proof.
  intros Hsw Hl Hd Hp. destruct (pq_make_rep comp Hsw dflt n l Hl Hd Hp) as (q & Hq & Hrep).
  exists q. split; [done|]. intros cs. by apply pq_history.
Qed.

Lemma static_priority_queue_from_list_refuted_lemma :
  exists (comp : nat -> nat -> bool) (d n : nat) (l : list nat) q,
    strict_weak comp /\ length l <= n /\ pq_make comp (Some d) n l = Ok q /\
    exists x, pq_top q = Ok x /\ x ∉ l.
Proof.
  exists (fun x y => Nat.ltb y x), 0, 3, [5]. eexists. split; [|split; [|split; [|eexists; split]]].
  - split.
    + intros x. apply Nat.ltb_irrefl.
    + intros x y z H1 H2. apply Nat.ltb_lt in H1, H2. apply Nat.ltb_lt. lia.
    + intros x y z H1 H2 H3 H4. apply Nat.ltb_ge in H1, H2, H3, H4. split; apply Nat.ltb_ge; lia.
  - cbn. lia.
  - vm_compute. reflexivity.
  - vm_compute. reflexivity.
  - rewrite elem_of_list_singleton. lia.
Qed.
