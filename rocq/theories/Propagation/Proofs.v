(** Proofs about copy assignment of types with allocators. *)
From Coq Require Import Lia Bool.
From stdpp Require Import list.
From Verif.Propagation Require Import Model Spec.

Section proofs.
  Context {A T : Type} `{EqDecision A}.
  Implicit Types (s : slot A) (ss : list (slot A)) (t f c : cont A T) (to from tmp : list (cont A T)).

  Lemma spend_enough (l : list T) n b : S n <= b -> exists b', spend l b = Some b' /\ n <= b'.
  Proof. intros H. destruct l; [exists b; split; [done|lia]|]. destruct b; [lia|]. exists b. split; [done|lia]. Qed.

  (** ** The copies *)
  Lemma extended_copies ss to from b tmp b' :
    length to = length ss -> length from = length ss -> (forall s, s ∈ ss -> keeps s) ->
    each (fun s x b => extended_copy s (snd x) (chosen s (fst x) (snd x)) b) ss (zip to from) b = Some (tmp, b') -> all_assigned ss to from tmp.
  Proof.
    revert to from b tmp b'. induction ss as [|s ss IH]; intros [|t to] [|f from] b tmp b' Ht Hf Hk; try done; cbn [each zip zip_with]; [intros [= <- <-]; constructor|].
    unfold extended_copy at 1, copy_with at 1. cbn [fst snd]. destruct (spend (items f) b) as [b1|]; [|done].
    destruct (each _ ss (zip to from) b1) as [[cs b2]|] eqn:E; [|done]. intros [= <- <-].
    constructor; [|apply (IH _ _ b1 _ b2); [by injection Ht|by injection Hf| |done]; intros s' Hs'; apply Hk; by right].
    split; [done|]. cbn [alloc_of]. unfold right_allocator, chosen, copy_propagation.
    assert (Ha : forall a, (if selecting s then socc (traits_of s) a else a) = a). { intros a. destruct (selecting s); [apply Hk; left|done]. }
    rewrite Ha. destruct (always_equal (traits_of s)); [by left|right]. by rewrite orb_false_r.
  Qed.
  Lemma plain_copies ss to from b tmp b' :
    length to = length ss -> length from = length ss -> (forall s, s ∈ ss -> always_equal (traits_of s) = true) ->
    each plain_copy ss from b = Some (tmp, b') -> all_assigned ss to from tmp.
  Proof.
    revert to from b tmp b'. induction ss as [|s ss IH]; intros [|t to] [|f from] b tmp b' Ht Hf Hk; try done; cbn [each]; [intros [= <- <-]; constructor|].
    unfold plain_copy at 1, copy_with at 1. destruct (spend (items f) b) as [b1|]; [|done].
    destruct (each _ ss from b1) as [[cs b2]|] eqn:E; [|done]. intros [= <- <-].
    constructor; [|apply (IH _ _ b1 _ b2); [by injection Ht|by injection Hf| |done]; intros s' Hs'; apply Hk; by right].
    split; [done|]. left. apply Hk. left.
  Qed.
  Lemma extended_enough ss to from n b :
    length to = length ss -> length from = length ss -> length ss + n <= b ->
    exists tmp b', each (fun s x b => extended_copy s (snd x) (chosen s (fst x) (snd x)) b) ss (zip to from) b = Some (tmp, b')
      /\ n <= b' /\ length tmp = length ss /\ map items tmp = map items from.
  Proof.
    revert to from b. induction ss as [|s ss IH]; intros [|t to] [|f from] b Ht Hf Hb; try done; [exists [], b; by cbn in *|]. cbn [each zip zip_with length] in *.
    unfold extended_copy at 1, copy_with at 1. cbn [fst snd]. destruct (spend_enough (items f) (length ss + n) b) as (b1 & -> & H1); [lia|].
    destruct (IH to from b1) as (cs & b2 & -> & H2 & H3 & H4); [lia|lia|lia|]. eexists _, b2. split; [done|]. cbn [length map items]. by rewrite H3, H4.
  Qed.
  Lemma plain_enough ss from n b :
    length from = length ss -> length ss + n <= b -> exists tmp b', each plain_copy ss from b = Some (tmp, b').
  Proof.
    revert from b. induction ss as [|s ss IH]; intros [|f from] b Hf Hb; try done; [by exists [], b|]. cbn [each length] in *.
    unfold plain_copy at 1, copy_with at 1. destruct (spend_enough (items f) (length ss + n) b) as (b1 & -> & H1); [lia|].
    destruct (IH from b1) as (cs & b2 & ->); [lia|lia|]. by eexists _, b2.
  Qed.

  (** ** Moving, resetting and swapping *)
  Lemma moves ss to from tmp b :
    all_assigned ss to from tmp ->
    (forall s, s ∈ ss -> move_propagation (traits_of s) || negb (copy_propagation (traits_of s)) = true) ->
    exists r, each (fun s x b => move_assign (traits_of s) (fst x) (snd x) b) ss (zip to tmp) b = Some (r, b) /\ all_assigned ss to from r.
  Proof.
    induction 1 as [|s ss t to f from c cs [Hi Ha] _ IH]; intros Hm; [exists []; split; [done|constructor]|]. cbn [each zip zip_with fst snd].
    assert (H : exists r, move_assign (traits_of s) t c b = Some (r, b) /\ assigned s t f r).
    { specialize (Hm s ltac:(left)). unfold move_assign, same, move_propagation, copy_propagation in *. unfold assigned, right_allocator in *.
      destruct (pocma (traits_of s)); [by eexists|]. destruct (always_equal (traits_of s)); [eexists; split; [done|]; split; [done|by left]|].
      cbn [orb] in *. rewrite orb_false_r in Hm. destruct (pocca (traits_of s)); [done|]. destruct Ha as [?|Ha]; [done|].
      rewrite bool_decide_true by done. eexists. split; [done|]. split; [done|by right]. }
    destruct H as (r & -> & Hr). destruct IH as (rs & -> & Hrs); [intros s' Hs'; apply Hm; by right|].
    exists (r :: rs). split; [done|]. by constructor.
  Qed.
  Lemma swaps ss to from tmp :
    all_assigned ss to from tmp -> (forall s, s ∈ ss -> always_equal (traits_of s) = false /\ pocs (traits_of s) = true) ->
    exists r, swap_each ss to tmp = Some r /\ all_assigned ss to from r.
  Proof.
    induction 1 as [|s ss t to f from c cs Hc _ IH]; intros Hm; [exists []; split; [done|constructor]|]. cbn [swap_each].
    unfold swap_conts. destruct (Hm s ltac:(left)) as [_ ->]. destruct IH as (rs & -> & Hrs); [intros s' Hs'; apply Hm; by right|].
    exists (c :: rs). split; [done|]. by constructor.
  Qed.
  Lemma resets ss to from tmp b :
    all_assigned ss to from tmp -> (forall s, s ∈ ss -> always_equal (traits_of s) = false /\ pocca (traits_of s) = true) ->
    exists to', reset ss to tmp b = Some (to', b) /\ exists r, swap_each ss to' tmp = Some r /\ all_assigned ss to from r.
  Proof.
    unfold reset. induction 1 as [|s ss t to f from c cs Hc _ IH]; intros Hm; [exists []; split; [done|]; exists []; split; [done|constructor]|].
    cbn [each zip zip_with fst snd]. unfold copy_assign at 1. cbn [items spend alloc_of]. destruct (Hm s ltac:(left)) as [Hae Hp]. rewrite Hp.
    destruct IH as (to' & -> & rs & Hs & Hrs); [intros s' Hs'; apply Hm; by right|]. eexists. split; [done|]. cbn [swap_each]. unfold swap_conts.
    cbn [alloc_of items]. unfold same. rewrite Hae, bool_decide_true by done. cbn [orb]. rewrite Hs. destruct (pocs (traits_of s)).
    - eexists. split; [done|]. by constructor.
    - eexists. split; [done|]. constructor; [|done]. by destruct c.
  Qed.

  (** ** Consistency *)
  Lemma all_equal_true ss : forallb (fun s => always_equal (traits_of s)) ss = true <-> forall s, s ∈ ss -> always_equal (traits_of s) = true.
  Proof. rewrite forallb_forall. by setoid_rewrite elem_of_list_In. Qed.
  Lemma consistent_true (l r : traits A) : consistent l r = true <->
    copy_propagation l = copy_propagation r /\ move_propagation l = move_propagation r /\ swap_propagation l = swap_propagation r.
  Proof. unfold consistent. rewrite !andb_true_iff, !eqb_true_iff. tauto. Qed.
  Lemma consistency_true s ss : consistency (s :: ss) = true <-> forall s', s' ∈ s :: ss -> consistent (traits_of s) (traits_of s') = true.
  Proof.
    cbn [consistency]. rewrite forallb_forall. setoid_rewrite <- elem_of_list_In. split; [|intros H s' Hs'; apply H; by right].
    intros H s' Hs'. apply elem_of_cons in Hs' as [->|Hs']; [by apply consistent_true|by apply H].
  Qed.
  Lemma alike_iff ss : alike ss <-> forallb (fun s => always_equal (traits_of s)) ss = true \/ consistency ss = true.
  Proof.
    unfold alike. rewrite all_equal_true. split; (intros [H|H]; [by left|right]).
    - destruct ss as [|s ss]; [done|]. apply consistency_true. intros s' Hs'. apply consistent_true. apply (H s s'); [left|done].
    - destruct ss as [|s ss]; [intros s s' Hs; by apply elem_of_nil in Hs|]. intros s1 s2 H1 H2.
      pose proof (proj1 (consistent_true _ _) (proj1 (consistency_true s ss) H s1 H1)) as (E1 & E2 & E3).
      pose proof (proj1 (consistent_true _ _) (proj1 (consistency_true s ss) H s2 H2)) as (F1 & F2 & F3).
      unfold copy_propagation, move_propagation, swap_propagation in *. by rewrite <- E1, <- F1, <- E2, <- F2, <- E3, <- F3.
  Qed.
  Lemma assign_none ss to from b : assign ss to from b = None <-> ~ alike ss.
  Proof.
    rewrite alike_iff. unfold assign. destruct (forallb _ ss); [split; [done|tauto]|]. destruct (consistency ss); cbn [negb]; [split; [done|tauto]|].
    split; [intros _ [?|?]; done|done].
  Qed.

  (** ** Assignment *)
  Lemma assign_spec ss to from b :
    length to = length ss -> length from = length ss -> (forall s, s ∈ ss -> keeps s) -> alike ss ->
    exists st r b', assign ss to from b = Some (st, r, b') /\
      ((st = Completed /\ all_assigned ss to from r) \/ (st = Thrown /\ r = to)) /\ (length ss <= b -> st = Completed).
  Proof.
    intros Ht Hf Hk Hal%alike_iff. unfold assign. destruct (forallb _ ss) eqn:Hae.
    - pose proof (proj1 (all_equal_true _) Hae) as Heq. destruct (each plain_copy ss from b) as [[tmp b']|] eqn:E.
      + destruct (moves ss to from tmp b') as (r & Hr & Has); [by eapply plain_copies|intros s Hs; unfold move_propagation; by rewrite Heq, orb_true_r|].
        unfold move_in. rewrite Hr. exists Completed, r, b'. split; [done|]. split; [by left|done].
      + exists Thrown, to, b. split; [done|]. split; [by right|]. intros Hb. destruct (plain_enough ss from 0 b) as (? & ? & Hp); [done|lia|]. by rewrite Hp in E.
    - destruct Hal as [Hal|Hc]; [done|]. rewrite Hc. cbn [negb]. destruct ss as [|s0 ss]; [done|]. pose proof (proj1 (consistency_true _ _) Hc) as Hco. clear Hc.
      destruct (each _ (s0 :: ss) (zip to from) b) as [[tmp b']|] eqn:E; cycle 1.
      { exists Thrown, to, b. split; [done|]. split; [by right|]. intros Hb. destruct (extended_enough (s0 :: ss) to from 0 b) as (? & ? & Hp & _); [done|done|lia|]. by rewrite Hp in E. }
      pose proof (extended_copies _ _ _ _ _ _ Ht Hf Hk E) as Htmp. clear E. cbn [traits_of].
      set (ss' := s0 :: ss) in *. clearbody ss'. destruct (move_propagation (traits_of s0) || negb (copy_propagation (traits_of s0))) eqn:Em.
      + destruct (moves ss' to from tmp b') as (r & Hr & Has); [done| |].
        { intros s Hs. pose proof (proj1 (consistent_true _ _) (Hco s Hs)) as (E1 & E2 & E3). by rewrite <- E1, <- E2. }
        unfold move_in. rewrite Hr. exists Completed, r, b'. split; [done|]. split; [by left|done].
      + apply orb_false_iff in Em as [Em Ec]. apply negb_false_iff in Ec.
        assert (Hs : forall s, s ∈ ss' -> always_equal (traits_of s) = false /\ pocca (traits_of s) = true /\ swap_propagation (traits_of s0) = pocs (traits_of s)).
        { intros s Hs. pose proof (proj1 (consistent_true _ _) (Hco s Hs)) as (E1 & E2 & E3). rewrite Em in E2. rewrite Ec in E1. rewrite E3.
          unfold copy_propagation, move_propagation, swap_propagation in *. symmetry in E2. apply orb_false_iff in E2 as [_ E2]. rewrite E2 in *.
          rewrite orb_false_r in *. done. }
        destruct (swap_propagation (traits_of s0)) eqn:Es; cbn [negb].
        * destruct (swaps ss' to from tmp) as (r & Hr & Has); [done| |]. { intros s Hin. destruct (Hs s Hin) as (? & ? & ?). done. }
          rewrite Hr. exists Completed, r, b'. split; [done|]. split; [by left|done].
        * destruct (resets ss' to from tmp b') as (to' & Hre & r & Hr & Has); [done| |]. { intros s Hin. destruct (Hs s Hin) as (? & ? & ?). done. }
          rewrite Hre, Hr. exists Completed, r, b'. split; [done|]. split; [by left|done].
  Qed.

  (** Nothing propagates *)
  Lemma moves_stay ss to from tmp n b :
    length to = length ss -> length from = length ss -> length tmp = length ss -> map items tmp = map items from ->
    (forall s, s ∈ ss -> stays s) -> length ss + n <= b ->
    exists r b', each (fun s x b => move_assign (traits_of s) (fst x) (snd x) b) ss (zip to tmp) b = Some (r, b') /\ all_assigned ss to from r.
  Proof.
    revert to from tmp b. induction ss as [|s ss IH]; intros [|t to] [|f from] [|c tmp] b Ht Hf Hc Hi Hs Hb; try done; [exists [], b; split; [done|constructor]|].
    cbn [each zip zip_with length fst snd] in *. injection Hi as Hi1 Hi2. destruct (Hs s ltac:(left)) as (P1 & P2 & P3).
    assert (H : exists r b1, move_assign (traits_of s) t c b = Some (r, b1) /\ assigned s t f r /\ length ss + n <= b1).
    { unfold move_assign, same. rewrite P2, P3. cbn [orb].
      assert (Has : assigned s t f (mk_cont (alloc_of t) (items c))). { split; [done|]. right. by rewrite P1. }
      destruct (bool_decide _); [eexists _, b; split; [done|]; split; [done|lia]|].
      destruct (spend_enough (items c) (length ss + n) b) as (b1 & -> & H1); [lia|]. by eexists _, b1. }
    destruct H as (r & b1 & -> & Hr & Hb1). destruct (IH to from tmp b1) as (rs & b2 & -> & Hrs); [lia|lia|lia|done|intros s' Hs'; apply Hs; by right|lia|].
    eexists _, b2. split; [done|]. by constructor.
  Qed.
  Lemma assign_stay ss to from b :
    length to = length ss -> length from = length ss -> (forall s, s ∈ ss -> stays s) -> alike ss -> 2 * length ss <= b ->
    exists r b', assign ss to from b = Some (Completed, r, b') /\ all_assigned ss to from r.
  Proof.
    intros Ht Hf Hs Hal%alike_iff Hb. unfold assign. destruct (forallb _ ss) eqn:Hae.
    - destruct ss as [|s ss]; [destruct to, from; try done; exists [], b; split; [done|constructor]|].
      destruct (Hs s ltac:(left)) as (_ & _ & P3). pose proof (proj1 (all_equal_true _) Hae s ltac:(left)) as P. congruence.
    - destruct Hal as [Hal|Hc]; [done|]. rewrite Hc. cbn [negb]. destruct ss as [|s0 ss]; [done|].
      destruct (extended_enough (s0 :: ss) to from (length (s0 :: ss)) b) as (tmp & b' & -> & Hb' & Hl & Hi); [done|done|lia|].
      destruct (Hs s0 ltac:(left)) as (P1 & P2 & P3). unfold move_propagation, copy_propagation. rewrite P1, P2, P3. cbn [orb negb].
      destruct (moves_stay (s0 :: ss) to from tmp 0 b') as (r & b2 & Hr & Has); [done|done|done|done|done|lia|].
      unfold move_in. rewrite Hr. by eexists _, b2.
  Qed.

  (** ** Graphs with weighted nodes *)
  Lemma graph_none ss nodes (to from : list (cont A T) * cont A T) b : assign_graph ss nodes to from b = None <-> ~ alike ss.
  Proof.
    rewrite <- (assign_none ss (fst to) (fst from) b). unfold assign_graph. destruct (assign ss _ _ b) as [[[[] r] b']|]; done.
  Qed.
  Lemma graph_spec ss nodes (to from : list (cont A T) * cont A T) b :
    length (fst to) = length ss -> length (fst from) = length ss -> (forall s, s ∈ ss -> keeps s) -> alike ss ->
    exists st r, assign_graph ss nodes to from b = Some (st, r) /\
      ((st = Completed /\ all_assigned ss (fst to) (fst from) (fst r) /\ items (snd r) = items (snd from)
          /\ right_allocator nodes (alloc_of (snd to)) (alloc_of (snd from)) (alloc_of (snd r)))
       \/ (st = Thrown /\ r = to) \/ (st = Terminated /\ items (snd from) <> [])).
  Proof.
    intros Ht Hf Hk Hal. destruct (assign_spec ss (fst to) (fst from) b Ht Hf Hk Hal) as (st & r & b' & E & Hst & _).
    unfold assign_graph. rewrite E. destruct Hst as [[-> Has]|[-> ->]].
    - unfold copy_assign. destruct (spend (items (snd from)) b') eqn:Es.
      + eexists _, _. split; [done|]. left. split; [done|]. split; [done|]. split; [done|]. by right.
      + eexists _, _. split; [done|]. do 2 right. split; [done|]. intros Hnil. by rewrite Hnil in Es.
    - eexists _, _. split; [done|]. right. left. split; [done|]. by destruct to.
  Qed.
End proofs.
