(** General lemmas about lists and outcomes; no source file is modelled here. *)
From stdpp Require Import list.
From Verif.Base Require Import Outcome.
From Coq Require Export ZifyBool ZifyNat ZifyN.
Ltac Zify.zify_post_hook ::= Z.div_mod_to_equations.

Lemma rget_ok {A} (l : list A) i x : rget l i = Ok x <-> l !! i = Some x.
Proof. unfold rget. destruct (l !! i); split; congruence. Qed.

Lemma rget_lt {A} (l : list A) i : i < length l -> exists x, rget l i = Ok x /\ l !! i = Some x.
Proof.
  intros Hi. destruct (lookup_lt_is_Some_2 l i Hi) as [x Hx].
  exists x. split; [by apply rget_ok|done].
Qed.

Lemma rset_ok {A} (l : list A) i x l' :
  rset l i x = Ok l' <-> i < length l /\ l' = <[i:=x]> l.
Proof.
  unfold rset. destruct (l !! i) eqn:E.
  - apply lookup_lt_Some in E. split; [intros [= <-]; done|intros [_ ->]; done].
  - apply lookup_ge_None in E. split; [done|lia].
Qed.

Lemma rswap_ok_lookup {A} (l l' : list A) i j :
  rswap l i j = Ok l' ->
  length l' = length l /\
  forall k, l' !! k = if decide (k = i) then l !! j else if decide (k = j) then l !! i else l !! k.
Proof.
  unfold rswap. destruct (l !! i) as [x|] eqn:Hi; [|done].
  destruct (l !! j) as [y|] eqn:Hj; [|done]. intros [= <-].
  pose proof (lookup_lt_Some _ _ _ Hi). pose proof (lookup_lt_Some _ _ _ Hj).
  split; [by rewrite !insert_length|]. intros k.
  destruct (decide (k = i)) as [->|].
  - rewrite list_lookup_insert; [done|]. by rewrite insert_length.
  - rewrite list_lookup_insert_ne by done.
    destruct (decide (k = j)) as [->|].
    + rewrite list_lookup_insert by done. done.
    + by rewrite list_lookup_insert_ne by done.
Qed.

Lemma rswap_exists {A} (l : list A) i j :
  i < length l -> j < length l -> exists l', rswap l i j = Ok l'.
Proof.
  intros Hi Hj. unfold rswap.
  destruct (lookup_lt_is_Some_2 l i Hi) as [x ->].
  destruct (lookup_lt_is_Some_2 l j Hj) as [y ->]. eauto.
Qed.

Lemma rswap_perm {A} (l l' : list A) i j : rswap l i j = Ok l' -> l' ≡ₚ l.
Proof.
  intros H. apply rswap_ok_lookup in H as [Hlen Hl].
  apply Permutation_inj. split; [done|].
  exists (fun k => if decide (k = i) then j else if decide (k = j) then i else k).
  split.
  - intros a b. repeat case_decide; subst; congruence.
  - intros k. rewrite Hl. repeat case_decide; done.
Qed.

Lemma lookup_in_range {A} (l : list A) i : i < length l -> exists x, l !! i = Some x.
Proof. intros Hi. destruct (lookup_lt_is_Some_2 l i Hi); eauto. Qed.

Lemma drop_eq_lookup {A} (l l' : list A) n :
  length l = length l' -> (forall k, n <= k -> l !! k = l' !! k) -> drop n l = drop n l'.
Proof.
  intros Hlen H. apply list_eq. intros i. rewrite !lookup_drop. apply H. lia.
Qed.

Lemma take_perm {A} (l l' : list A) n :
  l' ≡ₚ l -> (forall k, n <= k -> l' !! k = l !! k) -> take n l' ≡ₚ take n l.
Proof.
  intros HP HK. apply (Permutation_app_inv_r (drop n l)).
  rewrite take_drop.
  assert (drop n l = drop n l') as ->.
  { apply drop_eq_lookup; [by rewrite HP|]. intros k Hk. symmetry. by apply HK. }
  by rewrite take_drop.
Qed.
