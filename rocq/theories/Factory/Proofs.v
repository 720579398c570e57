(** Proofs about factories. *)
From Coq Require Import Ascii.
From stdpp Require Import list list_numbers sorting.
From Verif.Base Require Import Outcome Compare ListLemmas.
From Verif.Text Require Import Model.
From Verif.Factory Require Import Model Spec.
Local Open Scope res_scope.

Lemma nat_total : total_cmp Nat.compare.
Proof.
  split.
  - intros x y. apply Nat.compare_eq_iff.
  - intros x y. apply Nat.compare_antisym.
  - intros x y z. rewrite !Nat.compare_lt_iff. lia.
Qed.
Lemma element_total : total_cmp element_compare.
Proof. apply pair_total; [apply text_total|apply nat_total]. Qed.

Fixpoint number (i : nat) (ns : list name) : list element :=
  match ns with [] => [] | n :: ns' => (n, i) :: number (S i) ns' end.

Lemma make_elements_ok i ns : [] ∉ ns -> make_elements i ns = Ok (number i ns).
Proof.
  revert i. induction ns as [|n ns IH]; intros i H; [done|]. apply not_elem_of_cons in H as [Hn H]. cbn.
  destruct n; [done|]. cbn. by rewrite IH.
Qed.

Lemma make_elements_throw i ns : [] ∈ ns -> make_elements i ns = Throw LogicError.
Proof.
  revert i. induction ns as [|n ns IH]; intros i H; [by apply elem_of_nil in H|]. cbn.
  destruct n as [|c n]; [done|]. apply elem_of_cons in H as [H|H]; [done|]. cbn. by rewrite IH.
Qed.

Lemma number_elem ns : forall i n k, (n, k) ∈ number i ns <-> i <= k /\ ns !! (k - i) = Some n.
Proof.
  induction ns as [|m ns IH]; intros i n k; cbn [number].
  - rewrite elem_of_nil, lookup_nil. naive_solver.
  - rewrite elem_of_cons, IH. destruct (decide (k = i)) as [->|Hk].
    + rewrite Nat.sub_diag. cbn. split; [intros [H|[H _]]; [split; [lia|congruence]|lia]|intros [_ [= ->]]; by left].
    + split.
      * intros [H|[H1 H2]]; [congruence|]. split; [lia|]. replace (k - i) with (S (k - S i)) by lia. done.
      * intros [H1 H2]. right. split; [lia|]. replace (k - i) with (S (k - S i)) in H2 by lia. done.
Qed.

Lemma number_names ns i : map fst (number i ns) = ns.
Proof. revert i. induction ns as [|n ns IH]; intros i; cbn; [done|]. by rewrite IH. Qed.

Lemma number_length ns i : length (number i ns) = length ns.
Proof. rewrite <- (number_names ns i) at 2. by rewrite map_length. Qed.

(** ** The sorted elements *)

Definition before (x y : element) : Prop := text_compare (fst x) (fst y) = Lt.

Lemma adjacent_false es : StronglySorted (le_by (cmp := element_compare)) es -> adjacent_equal es = false -> StronglySorted before es.
Proof.
  intros Hs Ha. apply Sorted_StronglySorted.
  { intros x y z. unfold before. apply (cmp_trans text_total). }
  induction Hs as [|e es Hs IH HF]; [constructor|]. destruct es as [|e' es]; [by repeat constructor|]. cbn [adjacent_equal] in Ha.
  destruct (text_compare (fst e) (fst e')) eqn:E; [done| |].
  - constructor; [by apply IH|]. by constructor.
  - apply Forall_cons in HF as [HF _]. unfold le_by, element_compare, pair_compare in HF. apply (cmp_gt text_total) in E. by rewrite E in HF.
Qed.

Lemma adjacent_true es : adjacent_equal es = true -> ~ NoDup (map fst es).
Proof.
  induction es as [|e es IH]; [done|]. destruct es as [|e' es]; [done|]. cbn [adjacent_equal]. intros Ha Hd.
  apply NoDup_cons in Hd as [H1 H2]. destruct (text_compare (fst e) (fst e')) eqn:E; [|by apply IH..].
  apply (cmp_eq text_total) in E. apply H1. rewrite E. cbn. by left.
Qed.

Lemma before_nodup es : StronglySorted before es -> NoDup (map fst es).
Proof.
  induction 1 as [|e es Hs IH HF]; [constructor|]. cbn. constructor; [|done]. intros Hin. apply elem_of_list_fmap in Hin as (x&Hx&Hin).
  rewrite Forall_forall in HF. specialize (HF x Hin). unfold before in HF. rewrite Hx in HF. by apply (cmp_irrefl text_total) in HF.
Qed.

Lemma make_factory_ok ns : proper_names ns -> exists es, make_factory ns = Ok es /\ es ≡ₚ number 0 ns /\ StronglySorted before es.
Proof.
  intros [Hd He]. unfold make_factory. rewrite make_elements_ok by done. cbn [rbind].
  set (es := sort_by element_compare (number 0 ns)).
  assert (es ≡ₚ number 0 ns) as Hp by apply sort_by_perm.
  destruct (adjacent_equal es) eqn:E.
  - exfalso. apply adjacent_true in E. apply E. rewrite (Permutation_map fst Hp), number_names. done.
  - exists es. split; [done|]. split; [done|]. apply adjacent_false; [|done]. apply (sort_by_sorted element_total).
Qed.

Lemma make_factory_throw ns : ~ proper_names ns -> make_factory ns = Throw LogicError.
Proof.
  intros H. unfold make_factory. destruct (decide ([] ∈ ns)) as [He|He]; [by rewrite make_elements_throw|].
  rewrite make_elements_ok by done. cbn [rbind]. set (es := sort_by element_compare (number 0 ns)).
  assert (es ≡ₚ number 0 ns) as Hp by apply sort_by_perm.
  destruct (adjacent_equal es) eqn:E; [done|]. exfalso. apply H. split; [|done].
  rewrite <- (number_names ns 0), <- (Permutation_map fst Hp). apply before_nodup, adjacent_false; [|done]. apply (sort_by_sorted element_total).
Qed.

(** ** Searching *)

Lemma sorted_lookup {A} (P : A -> A -> Prop) l i j x y : StronglySorted P l -> l !! i = Some x -> l !! j = Some y -> i < j -> P x y.
Proof.
  intros Hs. revert i j. induction Hs as [|z l Hs IH HF]; intros i j Hi Hj Hij; [done|]. destruct j as [|j]; [lia|]. destruct i as [|i].
  - cbn in Hi. injection Hi as ->. rewrite Forall_forall in HF. apply HF. by eapply elem_of_list_lookup_2.
  - by apply (IH i j); [..|lia].
Qed.

Lemma lower_bound_spec fuel : forall es n first len, StronglySorted before es -> first + len <= length es -> len < fuel ->
  (forall i e, es !! i = Some e -> i < first -> text_compare (fst e) n = Lt) ->
  (forall i e, es !! i = Some e -> first + len <= i -> text_compare (fst e) n <> Lt) ->
  exists k, lower_bound fuel es n first len = Ok k /\ k <= length es /\
    (forall i e, es !! i = Some e -> i < k -> text_compare (fst e) n = Lt) /\
    (forall i e, es !! i = Some e -> k <= i -> text_compare (fst e) n <> Lt).
Proof.
  induction fuel as [|fuel IH]; intros es n first len Hs Hlen Hf Hlt Hge; [lia|]. cbn [lower_bound].
  destruct (decide (len = 0)) as [->|Hl].
  { exists first. split; [done|]. split; [lia|]. split; [done|]. intros i e Hi Hk. apply (Hge i e Hi). lia. }
  assert (len / 2 < len) as Hhalf by lia.
  destruct (lookup_lt_is_Some_2 es (first + len / 2)) as [e He]; [lia|]. unfold rget. rewrite He. cbn [rbind].
  assert (forall j e', es !! j = Some e' -> j < first + len / 2 -> text_compare (fst e) n = Lt -> text_compare (fst e') n = Lt) as Hdown.
  { intros j e' Hj Hlt' H. eapply (cmp_trans text_total); [|exact H]. apply (sorted_lookup before es j (first + len / 2)); done. }
  assert (forall j e', es !! j = Some e' -> first + len / 2 < j -> text_compare (fst e) n <> Lt -> text_compare (fst e') n <> Lt) as Hup.
  { intros j e' Hj Hlt' H H2. apply H. eapply (cmp_trans text_total); [|exact H2]. apply (sorted_lookup before es (first + len / 2) j); done. }
  assert (text_compare (fst e) n = Lt \/ text_compare (fst e) n <> Lt) as [E|E] by (destruct (text_compare (fst e) n); [by right|by left|by right]).
  - rewrite E. apply IH; [done|lia|lia| |].
    + intros i e' Hi Hk. destruct (decide (i = first + len / 2)) as [->|]; [by rewrite He in Hi; injection Hi as <-|]. apply (Hdown i); [done|lia|done].
    + intros i e' Hi Hk. apply (Hge i); [done|lia].
  - replace (match text_compare (fst e) n with Lt => _ | _ => lower_bound fuel es n first (len / 2) end) with (lower_bound fuel es n first (len / 2))
      by (destruct (text_compare (fst e) n); [done|by destruct E|done]).
    apply IH; [done|lia|lia|done|].
    intros i e' Hi Hk. destruct (decide (i = first + len / 2)) as [->|]; [by rewrite He in Hi; injection Hi as <-|]. apply (Hup i); [done|lia|done].
Qed.

Lemma find_spec es n : StronglySorted before es ->
  (exists i k, es !! i = Some (n, k) /\ find es n = Ok i) \/ (n ∉ map fst es /\ find es n = Ok (length es)).
Proof.
  intros Hs. unfold find. destruct (lower_bound_spec (S (length es)) es n 0 (length es)) as (k&->&Hk&Hlt&Hge); [done|lia|lia|lia| |].
  { intros i e Hi Hk. apply lookup_lt_Some in Hi. lia. }
  cbn [rbind]. destruct (decide (k = length es)) as [->|Hne].
  - right. split; [|done]. intros Hin. apply elem_of_list_fmap in Hin as (e&->&Hin). apply elem_of_list_lookup in Hin as [i Hi].
    pose proof (lookup_lt_Some _ _ _ Hi). specialize (Hlt i e Hi). rewrite (cmp_refl text_total) in Hlt. by feed specialize Hlt.
  - destruct (lookup_lt_is_Some_2 es k) as [e He]; [lia|]. unfold rget. rewrite He. cbn [rbind].
    pose proof (Hge k e He (le_n _)) as H1.
    destruct (text_compare (fst e) n) eqn:E; [|done|].
    + left. apply (cmp_eq text_total) in E. subst n. exists k, (snd e). split; [by destruct e|done].
    + right. split; [|done]. intros Hin. apply elem_of_list_fmap in Hin as (e'&->&Hin). apply elem_of_list_lookup in Hin as [i Hi].
      destruct (decide (i < k)) as [Hik|Hik]; [specialize (Hlt i e' Hi Hik); by apply (cmp_irrefl text_total) in Hlt|].
      destruct (decide (i = k)) as [->|Hik2]; [rewrite He in Hi; injection Hi as ->; by rewrite (cmp_refl text_total) in E|].
      assert (before e e') as H2 by (apply (sorted_lookup before es k i); [done..|lia]).
      unfold before in H2. apply (cmp_gt text_total) in E. by eapply (cmp_asym text_total).
Qed.

Lemma elem_number es ns n k : es ≡ₚ number 0 ns -> (n, k) ∈ es <-> ns !! k = Some n.
Proof. intros ->. rewrite number_elem, Nat.sub_0_r. split; [by intros [_ ?]|intros H; split; [lia|done]]. Qed.

Lemma names_perm es ns : es ≡ₚ number 0 ns -> names es ≡ₚ ns.
Proof. intros H. unfold names. by rewrite (Permutation_map fst H), number_names. Qed.

Lemma make_spec ns es : make_factory ns = Ok es ->
  proper_names ns /\ es ≡ₚ number 0 ns /\ StronglySorted before es.
Proof.
  intros H. assert (proper_names ns) as Hp.
  { destruct (decide (NoDup ns)) as [H1|H1]; [|by rewrite make_factory_throw in H by (by intros [? _])].
    destruct (decide ([] ∈ ns)) as [H2|H2]; [by rewrite make_factory_throw in H by (by intros [_ ?])|]. done. }
  destruct (make_factory_ok ns Hp) as (es'&H1&H2&H3). rewrite H in H1. injection H1 as <-. done.
Qed.

Lemma make_registered ns es n k : make_factory ns = Ok es -> ns !! k = Some n -> make es n = Ok k.
Proof.
  intros H Hk. destruct (make_spec ns es H) as ([Hd _]&Hp&Hs). unfold make.
  destruct (find_spec es n Hs) as [(i&k'&Hi&->)|[Hn _]]; cbn [rbind].
  - pose proof (lookup_lt_Some _ _ _ Hi). rewrite decide_False by lia. unfold rget. rewrite Hi. cbn. f_equal.
    assert (ns !! k' = Some n) as Hk' by (apply (elem_number es ns n k' Hp); by eapply elem_of_list_lookup_2).
    by eapply (NoDup_lookup ns).
  - exfalso. apply Hn. fold (names es). rewrite (names_perm es ns Hp). by eapply elem_of_list_lookup_2.
Qed.

Lemma make_unregistered ns es n : make_factory ns = Ok es -> n ∉ ns -> make es n = Throw RuntimeError.
Proof.
  intros H Hk. destruct (make_spec ns es H) as ([Hd _]&Hp&Hs). unfold make.
  destruct (find_spec es n Hs) as [(i&k'&Hi&_)|[_ ->]]; cbn [rbind]; [|by rewrite decide_True].
  exfalso. apply Hk. apply elem_of_list_lookup. exists k'. apply (elem_number es ns n k' Hp). by eapply elem_of_list_lookup_2.
Qed.

Lemma make_or_registered ns es d n k : make_factory ns = Ok es -> ns !! k = Some n -> make_or d es n = Ok k.
Proof.
  intros H Hk. pose proof (make_registered ns es n k H Hk) as Hm. unfold make in Hm. unfold make_or.
  destruct (find es n) as [i| | |]; cbn [rbind] in *; try done. by destruct (decide (i = length es)).
Qed.

Lemma find_type_spec es d : d ∈ map snd es -> exists n, es !! find_type es d = Some (n, d).
Proof.
  induction es as [|[m e] es IH]; intros H; [by apply elem_of_nil in H|]. cbn [find_type snd].
  destruct (decide (e = d)) as [->|He]; [by exists m|]. apply elem_of_cons in H as [H|H]; [done|]. apply IH, H.
Qed.

Lemma make_or_unregistered ns es d n : make_factory ns = Ok es -> n ∉ ns -> d < length ns -> make_or d es n = Ok d.
Proof.
  intros H Hk Hd. destruct (make_spec ns es H) as (_&Hp&Hs). unfold make_or.
  destruct (find_spec es n Hs) as [(i&k'&Hi&_)|[_ ->]]; cbn [rbind].
  - exfalso. apply Hk. apply elem_of_list_lookup. exists k'. apply (elem_number es ns n k' Hp). by eapply elem_of_list_lookup_2.
  - rewrite decide_True by done. destruct (find_type_spec es d) as [m Hm].
    + apply lookup_lt_is_Some in Hd as [m Hm]. apply elem_of_list_fmap. exists (m, d). split; [done|]. by apply (elem_number es ns).
    + unfold rget. by rewrite Hm.
Qed.

Lemma names_sorted ns es : make_factory ns = Ok es -> names es ≡ₚ ns /\ StronglySorted (fun v w => text_compare v w = Lt) (names es).
Proof.
  intros H. destruct (make_spec ns es H) as (_&Hp&Hs). split; [by apply names_perm|]. clear Hp H. unfold names.
  induction Hs as [|e es' Hs IH HF]; cbn; [constructor|]. constructor; [apply IH|by apply Forall_map].
Qed.

Lemma make_factory_iff ns : (exists es, make_factory ns = Ok es) <-> proper_names ns.
Proof.
  split; [intros [es H]; by destruct (make_spec ns es H)|]. intros H. destruct (make_factory_ok ns H) as (es&H1&_). by exists es.
Qed.

(** Equality: the same names for the same products. *)
Lemma factory_eq ns ns' es es' : make_factory ns = Ok es -> make_factory ns' = Ok es' -> es = es' <-> ns = ns'.
Proof.
  intros H H'. split; [|intros ->; rewrite H in H'; by injection H'].
  intros ->. apply list_eq. intros k. destruct (make_spec ns es' H) as (_&Hp&_). destruct (make_spec ns' es' H') as (_&Hp'&_).
  destruct (ns !! k) as [n|] eqn:E.
  - symmetry. by apply (elem_number es' ns' n k Hp'), (elem_number es' ns n k Hp).
  - destruct (ns' !! k) as [n|] eqn:E'; [|done]. apply (elem_number es' ns' n k Hp'), (elem_number es' ns n k Hp) in E'. congruence.
Qed.
