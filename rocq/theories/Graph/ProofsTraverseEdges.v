From stdpp Require Import list.
From Verif.Base Require Import Outcome ListLemmas.
From Verif.Graph Require Import Model Spec ModelTraverse SpecTraverse ProofsBase ProofsCount ProofsTraverse.
Local Open Scope res_scope.

(** *** Lists of events *)

Lemma precedes_lookup (l : list event) i j x y : i < j -> l !! i = Some x -> l !! j = Some y -> precedes l x y.
Proof.
  intros Hij Hx Hy. exists (take i l), (take (j - S i) (drop (S i) l)), (drop (S j) l).
  rewrite <- (take_drop_middle l i x Hx) at 1. do 2 f_equal.
  assert (Hy' : drop (S i) l !! (j - S i) = Some y). { rewrite lookup_drop. by replace (S i + (j - S i)) with j by lia. }
  rewrite <- (take_drop_middle _ _ _ Hy') at 1. do 2 f_equal. rewrite drop_drop. f_equal. lia.
Qed.

Lemma precedes_cons l z x y : precedes l x y -> precedes (z :: l) x y.
Proof. intros (l1 & l2 & l3 & ->). by exists (z :: l1), l2, l3. Qed.

Lemma precedes_head l x y : y ∈ l -> precedes (x :: l) x y.
Proof. intros (l1 & l2 & ->)%elem_of_list_split. by exists [], l1, l2. Qed.

Lemma precedes_mid l l1 l2 x y : precedes l x y -> precedes (l1 ++ l ++ l2) x y.
Proof. intros (a & b & c & ->). exists (l1 ++ a), b, (c ++ l2). by rewrite <- !app_assoc; cbn; rewrite <- !app_assoc. Qed.

Lemma precedes_suffix l l1 x y : precedes l x y -> precedes (l1 ++ l) x y.
Proof. intros H%(precedes_mid l l1 []). by rewrite app_nil_r in H. Qed.

Lemma precedes_app l1 l2 x y : x ∈ l1 -> y ∈ l2 -> precedes (l1 ++ l2) x y.
Proof.
  intros (a & b & ->)%elem_of_list_split (c & d & ->)%elem_of_list_split. exists a, (b ++ c), d.
  by rewrite <- !app_assoc.
Qed.

Lemma befores_app l l' : befores (l ++ l') = befores l ++ befores l'.
Proof. apply omap_app. Qed.
Lemma afters_app l l' : afters (l ++ l') = afters l ++ afters l'.
Proof. apply omap_app. Qed.
Lemma edges_met_app l l' : edges_met (l ++ l') = edges_met l ++ edges_met l'.
Proof. apply omap_app. Qed.

Definition is_edge (n : nat) (x : event) (k : nat) : Prop := x = First n k \/ x = Second n k.

Lemma edge_events n m ks : Forall2 (is_edge n) m ks ->
  befores m = [] /\ afters m = [] /\ edges_met m = map (pair n) ks.
Proof.
  induction 1 as [|x k m ks [-> | ->] _ (H1 & H2 & H3)]; [done|..]; (split; [exact H1|]; split; [exact H2|]);
    cbn [map]; rewrite <- H3; done.
Qed.

Lemma filter_same {A} (P Q : A -> Prop) `{!forall x, Decision (P x), !forall x, Decision (Q x)} (l : list A) :
  (forall x, x ∈ l -> P x <-> Q x) -> filter P l = filter Q l.
Proof.
  induction l as [|x l IH]; intros Hpq; [done|]. rewrite !filter_cons. assert (Hx : P x <-> Q x) by (apply Hpq; left).
  rewrite IH by (intros; apply Hpq; by right). by destruct (decide (P x)), (decide (Q x)); try tauto.
Qed.

Section edges.
  Context {W : Type} (g : graph W) (fl : flavour) (sr : search).
  Implicit Types e : edge W.
  Implicit Types r : list (edge W).

  Local Notation mark := (mark fl).
  Local Notation marks := (marks fl).
  Local Notation block := (block g fl sr).
  Local Notation tour := (tour g fl sr).

  Lemma mark_is_edge pre n k dist m e : is_edge n (mark pre n k dist m e).1 k.
  Proof.
    unfold mark, ProofsTraverse.mark, is_edge. destruct fl; cbn [fst]; [by left|..]; case_match; auto.
  Qed.

  Lemma marks_edges pre n r ks dist m :
    (forall k, k ∈ ks -> k < length r) -> Forall2 (is_edge n) (marks pre n r ks dist m) ks.
  Proof.
    revert dist m. induction ks as [|k ks IH]; intros dist m H; cbn; [constructor|].
    destruct (lookup_in_range r k) as [e ->]; [apply H; left|]. constructor; [apply mark_is_edge|]. apply IH. intros; apply H; by right.
  Qed.

  Lemma block_edges pre n : Forall2 (is_edge n) (marks pre n (row g n) (positions sr (row g n)) 0 true) (positions sr (row g n)).
  Proof. apply marks_edges. intros k Hk. by apply (positions_elem sr) in Hk. Qed.

  Lemma tour_events pre vs :
    befores (tour pre vs) = vs /\ afters (tour pre vs) = vs
    /\ edges_met (tour pre vs) = concat (map (fun n => map (pair n) (positions sr (row g n))) vs).
  Proof.
    revert pre. induction vs as [|n vs IH]; intros pre; [done|]. cbn [ProofsTraverse.tour].
    destruct (IH (pre ++ [n])) as (H1 & H2 & H3). rewrite befores_app, afters_app, edges_met_app, H1, H2, H3.
    unfold ProofsTraverse.block. destruct (edge_events n _ _ (block_edges pre n)) as (G1 & G2 & G3).
    set (m := ProofsTraverse.marks _ _ _ _ _ _ _) in *.
    change (Before n :: m ++ [After n]) with ([Before n] ++ m ++ [After n]).
    rewrite !befores_app, !afters_app, !edges_met_app, G1, G2, G3. cbn. rewrite app_nil_r. done.
  Qed.

  Lemma tour_visits pre vs : exists bs, tour pre vs = concat bs /\ Forall2 (visit_of g sr) vs bs.
  Proof.
    revert pre. induction vs as [|n vs IH]; intros pre; [by exists []|]. destruct (IH (pre ++ [n])) as (bs & H1 & H2).
    exists (block pre n :: bs). cbn [ProofsTraverse.tour concat]. rewrite H1. split; [done|]. constructor; [|done].
    eexists. split; [done|]. apply block_edges.
  Qed.

  Lemma tour_split pre l1 n l2 : tour pre (l1 ++ n :: l2) = tour pre l1 ++ block (pre ++ l1) n ++ tour (pre ++ l1 ++ [n]) l2.
  Proof. rewrite tour_app. cbn [ProofsTraverse.tour]. by rewrite <- app_assoc. Qed.

  Lemma positions_NoDup r : NoDup (positions sr r).
  Proof.
    unfold positions. destruct sr; [|rewrite reverse_Permutation|]; apply NoDup_ListNoDup, seq_NoDup.
  Qed.

  Lemma tour_edges_once pre vs :
    NoDup vs ->
    NoDup (edges_met (tour pre vs))
    /\ forall n k, (n, k) ∈ edges_met (tour pre vs) <-> n ∈ vs /\ is_Some (row g n !! k).
  Proof.
    destruct (tour_events pre vs) as (_ & _ & ->). intros Hd. split.
    - induction Hd as [|n vs Hn Hd IH]; cbn; [constructor|]. apply NoDup_app. split; [|split; [|done]].
      + apply NoDup_fmap_2; [intros ?? [=]; done|]. apply positions_NoDup.
      + intros x Hx Hx'. apply elem_of_list_fmap in Hx as (k & -> & _).
        apply elem_of_list_In, in_concat in Hx' as (l & Hl & Hx'). apply in_map_iff in Hl as (n' & <- & Hn').
        apply in_map_iff in Hx' as (k' & [= -> ->] & _). apply Hn. by apply elem_of_list_In.
    - intros n k. rewrite elem_of_list_In, in_concat. split.
      + intros (l & Hl & Hx). apply in_map_iff in Hl as (n' & <- & Hn'). apply in_map_iff in Hx as (k' & [= -> ->] & Hk).
        split; [by apply elem_of_list_In|]. apply lookup_lt_is_Some. apply (positions_elem sr). by apply elem_of_list_In.
      + intros [Hn Hk]. eexists. split; [apply in_map; by apply elem_of_list_In|]. apply in_map. apply elem_of_list_In, positions_elem.
        by apply lookup_lt_is_Some.
  Qed.

  Lemma tour_directed pre vs n k : fl = Directed -> Second n k ∉ tour pre vs.
  Proof.
    intros Hfl. revert pre. induction vs as [|v vs IH]; intros pre; cbn [ProofsTraverse.tour]; [apply not_elem_of_nil|].
    rewrite elem_of_app. intros [H|H]; [|by eapply IH]. unfold ProofsTraverse.block in H. apply elem_of_cons in H as [H|H]; [done|].
    apply elem_of_app in H as [H|H]; [|by apply elem_of_list_singleton in H].
    revert H. generalize 0, true. generalize (positions sr (row g v)). induction l as [|q l IHl]; intros a b; cbn; [apply not_elem_of_nil|].
    destruct (row g v !! q); [|apply not_elem_of_nil]. rewrite elem_of_cons. intros [H|H]; [|by eapply IHl].
    unfold ProofsTraverse.mark in H. rewrite Hfl in H. done.
  Qed.

  (** *** Links *)

  Lemma marks_link pre n r ks dist m k e :
    fl <> Directed -> (forall k, k ∈ ks -> k < length r) -> k ∈ ks -> r !! k = Some e -> tgt e <> n ->
    (if decide (tgt e ∈ pre) then Second n k else First n k) ∈ marks pre n r ks dist m.
  Proof.
    intros Hfl. revert dist m. induction ks as [|k' ks IH]; intros dist m Hks Hk He Ht; [by apply elem_of_nil in Hk|]. cbn [ProofsTraverse.marks].
    destruct (lookup_in_range r k') as [e' He']; [apply Hks; left|]. rewrite He'. apply elem_of_cons in Hk as [->|Hk].
    - assert (e' = e) as -> by congruence. apply elem_of_cons. left. unfold ProofsTraverse.mark.
      destruct (Nat.eqb_spec (tgt e) n); [done|]. cbn [fst]. rewrite orb_false_r. destruct fl; [done|..]; case_decide; case_bool_decide; done.
    - apply elem_of_cons. right. apply IH; [|done..]. intros; apply Hks; by right.
  Qed.

  Lemma block_link pre n k e :
    fl <> Directed -> row g n !! k = Some e -> tgt e <> n ->
    (if decide (tgt e ∈ pre) then Second n k else First n k) ∈ block pre n.
  Proof.
    intros Hfl He Ht. unfold ProofsTraverse.block. apply elem_of_cons. right. apply elem_of_app. left.
    apply marks_link; [done|intros k' Hk'; by apply (positions_elem sr) in Hk'| |done|done]. apply positions_elem. by apply lookup_lt_Some in He.
  Qed.

  Definition first_then_second (es : list event) (i j : nat) : Prop :=
    forall k k' e e', row g i !! k = Some e -> tgt e = j -> row g j !! k' = Some e' -> tgt e' = i ->
      precedes es (First i k) (Second j k').

  Lemma tour_links_ordered l1 l2 l3 i j :
    fl <> Directed -> NoDup (l1 ++ i :: l2 ++ j :: l3) -> first_then_second (tour [] (l1 ++ i :: l2 ++ j :: l3)) i j.
  Proof.
    intros Hfl Hd k k' e e' He Ht He' Ht'.
    assert (Hij : i <> j /\ j ∉ l1).
    { apply NoDup_app in Hd as (_ & H1 & H2). apply NoDup_cons in H2 as [H2 _]. split.
      - intros ->. apply H2. apply elem_of_app. right. left.
      - intros Hj. apply (H1 j Hj). apply elem_of_cons. right. apply elem_of_app. right. left. }
    destruct Hij as [Hij Hj].
    rewrite tour_split. apply precedes_suffix, precedes_app.
    - pose proof (block_link ([] ++ l1) i k e Hfl He ltac:(congruence)) as H. rewrite decide_False in H; [done|]. by rewrite Ht.
    - rewrite tour_split. apply elem_of_app. right. apply elem_of_app. left.
      pose proof (block_link (([] ++ l1 ++ [i]) ++ l2) j k' e' Hfl He' ltac:(congruence)) as H. rewrite decide_True in H; [done|].
      rewrite Ht'. cbn [app]. rewrite !elem_of_app, elem_of_list_singleton. auto.
  Qed.

  Lemma tour_links vs i j :
    fl <> Directed -> NoDup vs -> i ∈ vs -> j ∈ vs -> i <> j ->
    first_then_second (tour [] vs) i j \/ first_then_second (tour [] vs) j i.
  Proof.
    intros Hfl Hd Hi Hj Hij. apply elem_of_list_split in Hi as (l1 & l2 & ->).
    apply elem_of_app in Hj as [Hj|Hj].
    - apply elem_of_list_split in Hj as (l3 & l4 & ->). right. rewrite <- app_assoc in *. cbn [app] in *. by apply tour_links_ordered.
    - apply elem_of_cons in Hj as [Hj|Hj]; [congruence|]. apply elem_of_list_split in Hj as (l3 & l4 & ->). left. by apply tour_links_ordered.
  Qed.

  (** *** Loops of undirected graphs *)

  Definition is_loop (r : list (edge W)) (n k : nat) : Prop := tgt <$> r !! k = Some n.
  Local Instance is_loop_dec r n k : Decision (is_loop r n k).
  Proof. unfold is_loop. apply _. Defined.

  Lemma marks_loop_first pre n r ks dist (m : bool) k :
    fl = Undirected -> n ∉ pre -> (forall k, k ∈ ks -> k < length r) ->
    filter (is_loop r n) ks !! 0 = Some k ->
    (if m then First n k else Second n k) ∈ marks pre n r ks dist m.
  Proof.
    intros Hfl Hn. revert dist. induction ks as [|k' ks IH]; intros dist Hks Hh; [done|]. cbn [ProofsTraverse.marks].
    destruct (lookup_in_range r k') as [e' He']; [apply Hks; left|]. rewrite He'. rewrite filter_cons in Hh.
    destruct (decide (is_loop r n k')) as [Hl|Hl].
    - injection Hh as ->. unfold is_loop in Hl. rewrite He' in Hl. injection Hl as Hl. apply elem_of_cons. left.
      unfold ProofsTraverse.mark. rewrite Hfl, Hl, Nat.eqb_refl. cbn. rewrite bool_decide_false by done. by destruct m.
    - apply elem_of_cons. right. assert (Hm : (ProofsTraverse.mark fl pre n k' dist m e').2 = m).
      { unfold ProofsTraverse.mark. rewrite Hfl. destruct (Nat.eqb_spec (tgt e') n) as [Ht|]; [|done]. exfalso. apply Hl.
        unfold is_loop. rewrite He'. cbn. by rewrite Ht. }
      rewrite Hm. apply IH; [|done]. intros; apply Hks; by right.
  Qed.

  Lemma marks_loops pre n r ks dist m a k k' :
    fl = Undirected -> n ∉ pre -> (forall k, k ∈ ks -> k < length r) ->
    filter (is_loop r n) ks !! a = Some k -> filter (is_loop r n) ks !! S a = Some k' ->
    Nat.even a = m -> precedes (marks pre n r ks dist m) (First n k) (Second n k').
  Proof.
    intros Hfl Hn. revert dist m a. induction ks as [|k0 ks IH]; intros dist m a Hks Hk Hk' Hm; [done|]. cbn [ProofsTraverse.marks].
    destruct (lookup_in_range r k0) as [e0 He0]; [apply Hks; left|]. rewrite He0. rewrite filter_cons in Hk, Hk'.
    assert (Hks' : forall k, k ∈ ks -> k < length r) by (intros; apply Hks; by right).
    destruct (decide (is_loop r n k0)) as [Hl|Hl].
    - assert (Hmk : ProofsTraverse.mark fl pre n k0 dist m e0 = (if m then First n k0 else Second n k0, negb m)).
      { unfold is_loop in Hl. rewrite He0 in Hl. injection Hl as Hl. unfold ProofsTraverse.mark.
        rewrite Hfl, Hl, Nat.eqb_refl. cbn. rewrite bool_decide_false by done. by destruct m. }
      rewrite Hmk. cbn [fst snd]. destruct a as [|a].
      + cbn in Hm. subst m. injection Hk as ->. apply precedes_head.
        apply (marks_loop_first pre n r ks (S dist) false k' Hfl Hn Hks'). exact Hk'.
      + apply precedes_cons. apply (IH (S dist) (negb m) a Hks' Hk Hk'). rewrite <- Hm. rewrite Nat.even_succ, <- Nat.negb_even. by rewrite negb_involutive.
    - assert (Hmk : (ProofsTraverse.mark fl pre n k0 dist m e0).2 = m).
      { unfold ProofsTraverse.mark. rewrite Hfl. destruct (Nat.eqb_spec (tgt e0) n) as [Ht|]; [|done]. exfalso. apply Hl.
        unfold is_loop. rewrite He0. cbn. by rewrite Ht. }
      rewrite Hmk. apply precedes_cons. by apply (IH (S dist) m a Hks' Hk Hk').
  Qed.

  Lemma tour_loops vs n a k k' :
    fl = Undirected -> NoDup vs -> n ∈ vs ->
    loops g sr n !! (2 * a) = Some k -> loops g sr n !! (2 * a + 1) = Some k' ->
    precedes (tour [] vs) (First n k) (Second n k').
  Proof.
    intros Hfl Hd Hn Hk Hk'. apply elem_of_list_split in Hn as (l1 & l2 & ->). rewrite tour_split. apply precedes_mid.
    assert (Hnl : n ∉ l1). { apply NoDup_app in Hd as (_ & H & _). intros Hn. apply (H n Hn). left. }
    unfold ProofsTraverse.block. apply precedes_cons. apply (precedes_mid _ []). cbn [app].
    apply (marks_loops l1 n (row g n) (positions sr (row g n)) 0 true (2 * a) k k' Hfl Hnl).
    - intros q Hq. by apply (positions_elem sr) in Hq.
    - exact Hk.
    - rewrite <- Hk'. replace (S (2 * a)) with (2 * a + 1) by lia. done.
    - by rewrite Nat.even_mul.
  Qed.

  Lemma loops_length n : length (loops g sr n) = links g n n.
  Proof.
    assert (Hgen : forall r d, length (filter (fun k => tgt <$> r !! (k - d) = Some n) (seq d (length r))) = length (filter (fun e => tgt e = n) r)).
    { induction r as [|e r IH]; intros d; [done|]. cbn [length seq]. rewrite !filter_cons, Nat.sub_diag. cbn [lookup list_lookup fmap option_fmap option_map].
      specialize (IH (S d)). assert (Heq : filter (fun k => tgt <$> (e :: r) !! (k - d) = Some n) (seq (S d) (length r)) = filter (fun k => tgt <$> r !! (k - S d) = Some n) (seq (S d) (length r))).
      { apply filter_same. intros k Hk. apply elem_of_list_In, in_seq in Hk. replace (k - d) with (S (k - S d)) by lia. done. }
      rewrite Heq. case_decide as H1; case_decide as H2; cbn [length]; [by rewrite IH|congruence|congruence|by rewrite IH]. }
    specialize (Hgen (row g n) 0). unfold links.
    assert (Hs : filter (fun k => tgt <$> row g n !! k = Some n) (seq 0 (length (row g n))) = filter (fun k => tgt <$> row g n !! (k - 0) = Some n) (seq 0 (length (row g n)))).
    { apply filter_same. intros k _. by rewrite Nat.sub_0_r. }
    unfold loops, positions. rewrite <- Hgen, <- Hs. destruct sr; [done| |done]. by rewrite reverse_Permutation.
  Qed.

  (** *** Loops of embedded graphs *)

  Lemma marks_forward pre n r a b m i e :
    fl = Embedded -> n ∉ pre -> i < b -> (forall k, k < a + b -> k < length r) -> r !! (a + i) = Some e -> tgt e = n ->
    marks pre n r (seq a b) a m !! i = Some (if comp e <? a + i then Second n (a + i) else First n (a + i)).
  Proof.
    intros Hfl Hn. revert a m i. induction b as [|b IH]; intros a m i Hi Hk He Ht; [lia|]. cbn [seq ProofsTraverse.marks].
    destruct (lookup_in_range r a) as [e0 He0]; [apply Hk; lia|]. rewrite He0. destruct i as [|i].
    - rewrite Nat.add_0_r in *. assert (e0 = e) as -> by congruence. cbn. unfold ProofsTraverse.mark. rewrite Hfl, Ht, Nat.eqb_refl. cbn.
      by rewrite bool_decide_false by done.
    - cbn [lookup list_lookup]. replace (a + S i) with (S a + i) in * by lia. apply IH; [lia| |done|done].
      intros k Hk'. apply Hk. lia.
  Qed.

  Lemma tour_loops_embedded vs n k e :
    fl = Embedded -> sr <> PseudoDepthFirst -> NoDup vs -> n ∈ vs -> comp_ok g ->
    row g n !! k = Some e -> tgt e = n -> k < comp e ->
    precedes (tour [] vs) (First n k) (Second n (comp e)).
  Proof.
    intros Hfl Hsr Hd Hn Hok He Ht Hlt. destruct (Hok n k e He) as (e' & He' & Ht' & Hc' & _). rewrite Ht in He'.
    apply elem_of_list_split in Hn as (l1 & l2 & ->). rewrite tour_split. apply precedes_mid.
    assert (Hnl : n ∉ l1). { apply NoDup_app in Hd as (_ & H & _). intros Hn. apply (H n Hn). left. }
    unfold ProofsTraverse.block. apply precedes_cons. apply (precedes_mid _ []). cbn [app].
    assert (Hpos : positions sr (row g n) = seq 0 (length (row g n))) by (by destruct sr). rewrite Hpos.
    apply (precedes_lookup _ k (comp e)); [done|..].
    - rewrite (marks_forward l1 n (row g n) 0 _ true k e Hfl Hnl); [|by apply lookup_lt_Some in He|lia|done|done].
      cbn [plus]. destruct (Nat.ltb_spec (comp e) k); [lia|done].
    - rewrite (marks_forward l1 n (row g n) 0 _ true (comp e) e' Hfl Hnl); [|by apply lookup_lt_Some in He'|lia|done|done].
      cbn [plus]. rewrite Hc'. destruct (Nat.ltb_spec k (comp e)); [done|lia].
  Qed.
End edges.
