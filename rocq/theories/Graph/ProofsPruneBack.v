From Coq Require Import Sorted.
From stdpp Require Import list list_numbers.
From Verif.Base Require Import Outcome ListLemmas.
From Verif.Graph Require Import Model ModelWeighted Spec SpecWeighted ModelTree SpecTree ProofsBase ProofsInduced ProofsPrune.
Local Open Scope res_scope.

(** *** Depth *)

Inductive depth (ps : list (option nat)) : nat -> nat -> Prop :=
  | depth_root n : ps !! n = Some None -> depth ps n 0
  | depth_below n p k : ps !! n = Some (Some p) -> depth ps p k -> depth ps n (S k).

Lemma depth_fun ps n k k' : depth ps n k -> depth ps n k' -> k = k'.
Proof.
  intros H. revert k'. induction H as [n Hn|n p k Hn _ IH]; intros k' H'; inversion H'; subst; try congruence.
  f_equal. apply IH. congruence.
Qed.

Lemma depth_path ps n k : depth ps n k ->
  exists l, length l = S k /\ NoDup l /\ forall x, x ∈ l -> x < length ps /\ exists j, j <= k /\ depth ps x j.
Proof.
  induction 1 as [n Hn|n p k Hn Hp (l & Hl & Hd & Hx)].
  - exists [n]. split; [done|]. split; [apply NoDup_singleton|]. intros x Hx. apply elem_of_list_singleton in Hx as ->.
    split; [by apply lookup_lt_Some in Hn|]. exists 0. split; [done|by constructor].
  - exists (n :: l). split; [cbn; lia|]. split.
    + constructor; [|done]. intros Hin. destruct (Hx n Hin) as [_ (j & Hj & Hdj)].
      assert (j = S k) by (eapply depth_fun; [exact Hdj|by eapply depth_below]). lia.
    + intros x [->|Hin]%elem_of_cons.
      * split; [by apply lookup_lt_Some in Hn|]. exists (S k). split; [done|by eapply depth_below].
      * destruct (Hx x Hin) as [Hlt (j & Hj & Hdj)]. split; [done|]. exists j. split; [lia|done].
Qed.

Lemma depth_lt ps n k : depth ps n k -> k < length ps.
Proof.
  intros (l & Hl & Hd & Hx)%depth_path. assert (length l <= length (seq 0 (length ps))); [|rewrite seq_length in *; lia].
  apply submseteq_length, NoDup_submseteq; [done|]. intros x Hin. apply elem_of_seq. destruct (Hx x Hin). lia.
Qed.

Lemma anc_depth ps n r : anc ps n r -> ps !! r = Some None -> exists k, depth ps n k.
Proof.
  induction 1 as [n Hn|n p a Hp _ IH]; intros Hr; [exists 0; by constructor|]. destruct (IH Hr) as [k Hk].
  exists (S k). by eapply depth_below.
Qed.

Lemma tree_depth ps n : tree_shaped ps -> n < length ps -> exists k, depth ps n k.
Proof. intros [->|(r & Hr & Hall)] Hn; [cbn in Hn; lia|]. by eapply anc_depth; [apply Hall|]. Qed.

Lemma anc_inv ps n a : anc ps n a -> n = a \/ exists p, ps !! n = Some (Some p) /\ anc ps p a.
Proof. intros [? ?|? p ? Hp Ha]; [by left|right; by exists p]. Qed.

Section backward.
  Context {W V : Type} `{!EqDecision W}.
  Context (fl : flavour) (g0 : wgraph W V) (ps : list (option nat)) (node : nat).
  Context (Hrep : tree_rep Backward (edges g0) ps) (Hshape : tree_shaped ps) (Hnode : node < length ps).
  Local Notation N := (length ps).

  Record marked (del : list bool) : Prop := {
    mk_length : length del = N;
    mk_node : del !! node = Some true;
    mk_sound : forall x, del !! x = Some true -> anc ps x node
  }.

  Lemma marked_set del x : marked del -> anc ps x node ->
    exists del', rset del x true = Ok del' /\ marked del' /\ (forall y, del !! y = Some true -> del' !! y = Some true)
      /\ del' !! x = Some true.
  Proof.
    intros [H1 H2 H3] Ha. assert (Hx : x < length del) by (rewrite H1; by eapply anc_lt).
    exists (<[x := true]> del). unfold rset. destruct (lookup_in_range _ _ Hx) as [b ->]. split; [done|].
    assert (Hmono : forall y, del !! y = Some true -> <[x := true]> del !! y = Some true).
    { intros y Hy. destruct (decide (y = x)) as [->|]; [by rewrite list_lookup_insert|by rewrite list_lookup_insert_ne]. }
    split; [|split; [done|by apply list_lookup_insert]]. split; [by rewrite insert_length|by apply Hmono|].
    intros y Hy. destruct (decide (y = x)) as [->|]; [done|]. rewrite list_lookup_insert_ne in Hy by done. by apply H3.
  Qed.

  Lemma back_targets x : x < N -> targets x g0 = Ok (parent_of ps x).
  Proof.
    intros Hx. destruct Hrep as [Hl Hr]. unfold targets, order. destruct (Nat.ltb_spec x (length (edges g0))); [|lia].
    rewrite rget_row by done. cbn [rbind]. f_equal. specialize (Hr x Hx). unfold parent_of in *.
    destruct (ps !! x) as [[p|]|]; [by apply Permutation_singleton_r in Hr|by apply Permutation_nil_r in Hr..].
  Qed.

  Lemma prune_mark_ok fuel x k del :
    depth ps x k -> k < fuel -> marked del ->
    exists del', prune_mark fuel g0 x del = Ok del' /\ marked del' /\ (forall y, del !! y = Some true -> del' !! y = Some true)
      /\ (anc ps x node -> del' !! x = Some true).
  Proof.
    revert x k del. induction fuel as [|fuel IH]; intros x k del Hd Hk H; [lia|]. cbn [prune_mark].
    assert (Hx : x < N) by (destruct Hd as [? Hn|? ? ? Hn _]; by apply lookup_lt_Some in Hn).
    rewrite back_targets by done. cbn [rbind]. unfold parent_of. destruct Hd as [x Hn|x p k Hn Hd]; rewrite Hn.
    - exists del. split; [done|]. split; [done|]. split; [done|]. intros [->|(p & Hp & _)]%anc_inv; [apply (mk_node _ H)|congruence].
    - assert (Hp : p < N) by by apply (parent_valid ps Hshape x).
      assert (Hget : forall dl, marked dl -> exists b, dl !! p = Some b) by (intros dl Hdl; apply lookup_in_range; by rewrite (mk_length _ Hdl)).
      assert (Hanc : anc ps x node -> x = node \/ anc ps p node).
      { intros [->|(q & Hq & Ha)]%anc_inv; [by left|right]. assert (q = p) as -> by congruence. done. }
      destruct (Hget del H) as [b Hb]. unfold rget at 1. rewrite Hb. cbn [rbind]. destruct b.
      + destruct (marked_set del x H) as (del' & Hs & H' & Hm & Hset); [|by exists del'].
        eapply anc_up; [exact Hn|]. by apply (mk_sound _ H).
      + destruct (IH p k del Hd ltac:(lia) H) as (del1 & H1 & Hmk & Hm & Hc). rewrite H1. cbn [rbind].
        destruct (Hget del1 Hmk) as [b1 Hb1]. unfold rget. rewrite Hb1. cbn [rbind]. destruct b1.
        * destruct (marked_set del1 x Hmk) as (del' & Hs & H' & Hm' & Hset).
          { eapply anc_up; [exact Hn|]. by apply (mk_sound _ Hmk). }
          exists del'. split; [done|]. split; [done|]. split; [|done]. intros y Hy. by apply Hm', Hm.
        * exists del1. split; [done|]. split; [done|]. split; [done|]. intros [->|Ha]%Hanc; [apply (mk_node _ Hmk)|].
          specialize (Hc Ha). congruence.
  Qed.

  Lemma prune_marks_ok xs del :
    (forall x, x ∈ xs -> x < N) -> marked del ->
    exists del', prune_marks N g0 xs del = Ok del' /\ marked del' /\ (forall y, del !! y = Some true -> del' !! y = Some true)
      /\ (forall x, x ∈ xs -> anc ps x node -> del' !! x = Some true).
  Proof.
    revert del. induction xs as [|x xs IH]; intros del Hxs H; cbn [prune_marks].
    { exists del. split; [done|]. split; [done|]. split; [done|]. intros x Hx. by apply elem_of_nil in Hx. }
    assert (Hx : x < N) by (apply Hxs; left). destruct (lookup_in_range del x) as [b Hb]; [by rewrite (mk_length _ H)|].
    unfold rget. rewrite Hb. cbn [rbind].
    assert (Hone : exists del1, (if b then Ok del else prune_mark N g0 x del) = Ok del1 /\ marked del1
      /\ (forall y, del !! y = Some true -> del1 !! y = Some true) /\ (anc ps x node -> del1 !! x = Some true)).
    { destruct b; [by exists del|]. destruct (tree_depth ps x Hshape Hx) as [k Hk]. eapply prune_mark_ok; [exact Hk|by apply depth_lt in Hk|done]. }
    destruct Hone as (del1 & -> & H1 & Hm1 & Hc1). cbn [rbind].
    destruct (IH del1) as (del2 & -> & H2 & Hm2 & Hc2); [intros; apply Hxs; by right|done|].
    exists del2. split; [done|]. split; [done|]. split; [intros y Hy; by apply Hm2, Hm1|].
    intros y [->|Hy]%elem_of_cons Ha; [by apply Hm2, Hc1|by apply Hc2].
  Qed.

  Lemma prune_erase_ok del j R g :
    length del = N -> j <= N -> consistent fl g -> w_induced fl (seq 0 j ++ R) g0 g -> StronglySorted lt (seq 0 j ++ R) ->
    (forall x, x ∈ R <-> j <= x < N /\ del !! x = Some false) ->
    exists g' K, prune_erase fl (reverse (seq 0 j)) del g = Ok (Done g') /\ consistent fl g' /\ w_induced fl K g0 g'
      /\ StronglySorted lt K /\ (forall x, x ∈ K <-> x < N /\ del !! x = Some false).
  Proof.
    intros Hl. revert R g. induction j as [|j IH]; intros R g Hj Hc Hi Hs HR.
    { exists g, R. split; [done|]. split; [done|]. split; [done|]. split; [done|]. intros x. rewrite HR. split; intros [? ?]; (split; [lia|done]). }
    rewrite seq_S, reverse_snoc. cbn [plus prune_erase]. rewrite seq_S in Hi, Hs. cbn [plus] in Hi, Hs. rewrite <- app_assoc in Hi, Hs. cbn [app] in Hi, Hs.
    destruct (lookup_in_range del j) as [b Hb]; [lia|]. rewrite Hb. destruct b.
    - destruct (erase_w_induced fl (seq 0 j ++ j :: R) g0 g j j Hc Hi) as (g1 & He & Hc1 & Hi1).
      { by apply increasing_NoDup. } { rewrite lookup_app_r by (rewrite seq_length; lia). by rewrite seq_length, Nat.sub_diag. }
      rewrite He. cbn [obind]. assert (Hdel : delete j (seq 0 j ++ j :: R) = seq 0 j ++ R).
      { rewrite <- (seq_length j 0) at 1. apply delete_middle. }
      rewrite Hdel in Hi1. apply (IH R g1); [lia|done|done|rewrite <- Hdel; by apply increasing_delete|].
      intros x. rewrite HR. split; intros [H1 H2]; (split; [|done]); [lia|]. assert (x <> j) by congruence. lia.
    - apply (IH (j :: R) g); [lia|done|done|done|]. intros x. rewrite elem_of_cons, HR. split.
      + intros [->|[H1 H2]]; (split; [lia|done]).
      + intros [H1 H2]. destruct (decide (x = j)); [by left|right]. split; [lia|done].
  Qed.

  Lemma prune_backward_ok :
    consistent fl g0 ->
    exists g' K, prune_backward fl node g0 = Ok (Done g') /\ consistent fl g' /\ w_induced fl K g0 g'
      /\ StronglySorted lt K /\ (forall x, x ∈ K <-> x < N /\ ~ anc ps x node).
  Proof.
    intros Hc. unfold prune_backward. assert (HN : order (edges g0) = N) by apply Hrep. rewrite HN.
    destruct (Nat.leb_spec N node); [lia|]. unfold rset. rewrite lookup_replicate_2 by done. cbn [rbind].
    assert (H0 : marked (<[node := true]> (replicate N false))).
    { split; [by rewrite insert_length, replicate_length|by apply list_lookup_insert; rewrite replicate_length|].
      intros x Hx. destruct (decide (x = node)) as [->|]; [by apply anc_refl|]. rewrite list_lookup_insert_ne in Hx by done.
      by apply lookup_replicate in Hx as [? _]. }
    destruct (prune_marks_ok (seq 0 N) (<[node := true]> (replicate N false))) as (del & -> & Hm & _ & Hall); [|exact H0|].
    { intros x Hx. apply elem_of_seq in Hx. lia. }
    destruct (prune_erase_ok del N [] g0) as (g' & K & H1 & H2 & H3 & H4 & H5).
    - apply (mk_length _ Hm).
    - done.
    - done.
    - rewrite app_nil_r, <- HN. by apply w_induced_refl.
    - rewrite app_nil_r. apply increasing_seq.
    - intros x. split; [intros Hx; by apply elem_of_nil in Hx|lia].
    - exists g', K. split; [done|]. split; [done|]. split; [done|]. split; [done|]. intros x. rewrite H5. split.
      + intros [Hx Hf]. split; [done|]. intros Ha. rewrite Hall in Hf; [done|apply elem_of_seq; lia|done].
      + intros [Hx Hna]. split; [done|]. destruct (lookup_in_range del x) as [[] Hb]; [by rewrite (mk_length _ Hm)| |done].
        exfalso. by apply Hna, (mk_sound _ Hm).
  Qed.
End backward.
