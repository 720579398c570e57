From stdpp Require Import list list_numbers.
From Verif.Base Require Import Outcome ListLemmas.
From Verif.Graph Require Import Model ModelWeighted Spec SpecWeighted ModelTree SpecTree ProofsBase ProofsEmb ProofsCount ProofsWeighted.
From Verif.Graph Require ProofsTop.
Local Open Scope res_scope.

Lemma Forall2_filter_map {A B C} (R : A -> B -> Prop) (R' : A -> C -> Prop) (P : A -> Prop) (Q : B -> Prop) (f : B -> C)
    (Hdp : forall x, Decision (P x)) (Hdq : forall x, Decision (Q x)) (l : list A) (k : list B) :
  Forall2 R l k -> (forall x y, x ∈ l -> y ∈ k -> R x y -> (P x <-> Q y) /\ (P x -> R' x (f y))) ->
  Forall2 R' (filter P l) (map f (filter Q k)).
Proof.
  induction 1 as [|x y l k Hr _ IH]; intros H0; [constructor|]. rewrite !filter_cons.
  destruct (H0 x y ltac:(left) ltac:(left) Hr) as [Hxy Hr'].
  assert (Forall2 R' (filter P l) (map f (filter Q k))) by (apply IH; intros a b Ha Hb; apply H0; by right).
  destruct (decide (P x)), (decide (Q y)); [constructor; auto|tauto|tauto|done].
Qed.

Lemma filter_filter_and {A} (P Q : A -> Prop) `{!forall x, Decision (P x), !forall x, Decision (Q x)} (l : list A) :
  (forall x, P x -> Q x) -> filter P (filter Q l) = filter P l.
Proof.
  intros Hpq. induction l as [|x l IH]; [done|]. rewrite !filter_cons.
  destruct (decide (Q x)) as [Hq|Hq]; [by rewrite filter_cons, IH|]. destruct (decide (P x)) as [Hp|]; [by apply Hpq in Hp|done].
Qed.

Lemma take_filter {A} (P : A -> Prop) `{!forall x, Decision (P x)} c (l : list A) :
  take (length (filter P (take c l))) (filter P l) = filter P (take c l).
Proof.
  rewrite <- (take_drop c l) at 2. rewrite list.filter_app. by rewrite take_app.
Qed.

Lemma filter_split_length {A} (P : A -> Prop) `{!forall x, Decision (P x)} (l : list A) :
  length (filter P l) + length (filter (fun x => ~ P x) l) = length l.
Proof.
  induction l as [|x l IH]; [done|]. rewrite !filter_cons.
  destruct (decide (P x)), (decide (~ P x)); cbn; try tauto; lia.
Qed.

Section induced.
  Context {W : Type} `{!EqDecision W}.
  Implicit Types g : graph W.

  Lemma delete_lookup_up {A} (K : list A) p i : delete p K !! i = K !! up p i.
  Proof.
    unfold up. case_decide as H.
    - rewrite lookup_delete_ge by lia. by rewrite Nat.add_1_r.
    - by rewrite lookup_delete_lt by lia.
  Qed.

  Lemma delete_elem (K : list nat) p q t : NoDup K -> K !! p = Some q -> t ∈ delete p K <-> t ∈ K /\ t <> q.
  Proof.
    intros Hd Hp. pose proof (delete_Permutation _ _ _ Hp) as Hperm. assert (Hk : t ∈ K <-> t = q \/ t ∈ delete p K) by (by rewrite Hperm at 1; rewrite elem_of_cons). rewrite Hk.
    rewrite Hperm in Hd. apply NoDup_cons in Hd as [Hq _]. split.
    - intros Ht. split; [by right|]. intros ->. done.
    - intros [[->|Ht] Hne]; done.
  Qed.

  Lemma up_down p t : t <> p -> up p (down p t) = t.
  Proof. unfold up, down. intros H. repeat case_decide; lia. Qed.

  Lemma induced_refl fl g : graph_ok fl g -> induced fl (seq 0 (length g)) g g.
  Proof.
    intros Hok. assert (Hin : in_range g) by (destruct fl; [done|by destruct Hok|by apply comp_ok_in_range]).
    assert (Hall : forall r : list (edge W), (forall e, e ∈ r -> tgt e < length g) -> filter (fun e => tgt e ∈ seq 0 (length g)) r = r).
    { induction r as [|e r IH]; intros Hr; [done|]. rewrite filter_cons, decide_True.
      - f_equal. apply IH. intros; apply Hr; by right.
      - apply elem_of_list_In, in_seq. specialize (Hr e ltac:(left)). lia. }
    split; [by rewrite seq_length|]. intros i n Hi. apply lookup_seq in Hi as [-> Hi]. cbn. rewrite Hall by (intros; by eapply Hin).
    apply Forall_Forall2_diag, Forall_forall. intros e He. split; [|split; [done|]].
    - apply lookup_seq. split; [done|]. by eapply Hin.
    - intros ->. apply elem_of_list_lookup in He as [k Hk]. destruct (Hok i k e Hk) as (e' & He' & _).
      rewrite Hall.
      + rewrite take_length. apply lookup_lt_Some in He'. lia.
      + intros x Hx. apply (Hin (tgt e)). eapply elem_of_submseteq; [exact Hx|]. apply sublist_submseteq, sublist_take.
  Qed.

  Lemma gone_kept g p (e : edge W) :
    comp e - gone_before g p (tgt e) (comp e) = length (filter (fun x => tgt x <> p) (take (comp e) (row g (tgt e))))
    \/ length (row g (tgt e)) < comp e.
  Proof.
    destruct (decide (comp e <= length (row g (tgt e)))) as [Hc|Hc]; [left|right; lia]. unfold gone_before.
    pose proof (filter_split_length (fun x : edge W => tgt x = p) (take (comp e) (row g (tgt e)))) as H.
    rewrite take_length in H. rewrite Nat.min_l in H by done. lia.
  Qed.

  Lemma induced_erase fl K g0 g g' p q :
    induced fl K g0 g -> NoDup K -> graph_ok fl g -> is_erased fl p g g' -> K !! p = Some q ->
    induced fl (delete p K) g0 g'.
  Proof.
    intros [Hl Hr] Hd Hok [Hl' Hr'] Hp. assert (Hplt : p < length K) by by apply lookup_lt_Some in Hp.
    pose proof (fun t => delete_elem K p q t) as Hde. split; [rewrite list.length_delete by (by eexists); lia|].
    intros i n Hi. assert (Hil : i < length g').
    { apply lookup_lt_Some in Hi. rewrite list.length_delete in Hi by (by eexists). lia. }
    rewrite delete_lookup_up in Hi. rewrite Hr' by done. specialize (Hr (up p i) n Hi) as Hrow.
    rewrite <- (filter_filter_and (fun e => tgt e ∈ delete p K) (fun e => tgt e ∈ K)) by (intros x Hx; by apply (Hde (tgt x) Hd Hp) in Hx as [? _]).
    eapply (Forall2_filter_map _ _ _ (fun e => tgt e <> p)); [exact Hrow|]. intros e e' He He' (Ht & Hw & Hc).
    assert (Hpq : tgt e ∈ delete p K <-> tgt e' <> p).
    { rewrite (Hde (tgt e) Hd Hp). split.
      - intros [_ Hne] Heq. apply Hne. rewrite Heq in Ht. congruence.
      - intros Hne. split; [by eapply elem_of_list_lookup_2|]. intros Heq. apply Hne. eapply NoDup_lookup; [exact Hd|exact Ht|]. by rewrite Heq. }
    split; [done|]. intros Hk. cbn [tgt wt comp]. split; [|split].
    - rewrite delete_lookup_up, up_down by by apply Hpq. done.
    - done.
    - intros ->. cbn [new_comp]. specialize (Hc eq_refl).
      apply elem_of_list_lookup in He' as [k Hk']. destruct (Hok (up p i) k e' Hk') as (e2 & He2 & _).
      destruct (gone_kept g p e') as [-> | Hbad]; [|apply lookup_lt_Some in He2; lia].
      (* the kept part of the partner's row *)
      specialize (Hr (tgt e') (tgt e) Ht).
      assert (Htake : Forall2 (fun x y => K !! tgt y = Some (tgt x))
        (filter (fun x => tgt x ∈ K) (take (comp e) (row g0 (tgt e)))) (take (comp e') (row g (tgt e')))).
      { rewrite <- take_filter, <- Hc. apply Forall2_take. eapply Forall2_impl; [exact Hr|]. by intros x y [? _]. }
      assert (Hf : Forall2 (fun x (y : edge W) => True)
        (filter (fun x => tgt x ∈ delete p K) (filter (fun x => tgt x ∈ K) (take (comp e) (row g0 (tgt e)))))
        (map id (filter (fun x => tgt x <> p) (take (comp e') (row g (tgt e')))))).
      { eapply Forall2_filter_map; [exact Htake|]. intros x y _ _ Hxy. cbn beta in Hxy |- *. split; [|done]. rewrite (Hde (tgt x) Hd Hp). split.
        - intros [_ Hne] Heq. apply Hne. rewrite Heq in Hxy. congruence.
        - intros Hne. split; [by eapply elem_of_list_lookup_2|]. intros Heq. apply Hne. eapply NoDup_lookup; [exact Hd|exact Hxy|]. by rewrite Heq. }
      apply Forall2_length in Hf. rewrite map_length in Hf. rewrite <- Hf.
      by rewrite (filter_filter_and (fun e => tgt e ∈ delete p K) (fun e => tgt e ∈ K)) by (intros x Hx; by apply (Hde (tgt x) Hd Hp) in Hx as [? _]).
  Qed.
End induced.

Section sub_graph.
  Context {W V : Type} `{!EqDecision W}.
  Implicit Types g : wgraph W V.

  Lemma weights_erase_delete (ws : list V) n : n < length ws -> weights_erase ws n = Ok (delete n ws).
  Proof.
    intros H. unfold weights_erase. destruct (Nat.eqb_spec n (length ws)); [lia|]. destruct (Nat.ltb_spec n (length ws)); [|lia].
    by rewrite delete_take_drop.
  Qed.

  Lemma delete_map {A B} (f : A -> B) n (l : list A) : delete n (map f l) = map f (delete n l).
  Proof. revert n. induction l as [|x l IH]; intros [|n]; cbn; [done|done|done|]. f_equal. apply IH. Qed.

  Lemma w_induced_refl fl g : consistent fl g -> w_induced fl (seq 0 (order (edges g))) g g.
  Proof.
    intros [Hok Hl]. split; [by apply induced_refl|]. rewrite <- Hl. apply list_eq. intros i.
    rewrite !list_lookup_fmap. destruct (decide (i < length (weights g))) as [Hi|Hi].
    - rewrite lookup_seq_lt by done. destruct (lookup_in_range _ _ Hi) as [x Hx]. cbn. by rewrite Hx.
    - rewrite (lookup_ge_None_2 (weights g)) by lia. by rewrite lookup_seq_ge by lia.
  Qed.

  Lemma w_induced_order fl K g0 g : w_induced fl K g0 g -> order (edges g) = length K.
  Proof. by intros [[H _] _]. Qed.

  Lemma erase_w_induced fl K g0 g p q :
    consistent fl g -> w_induced fl K g0 g -> NoDup K -> K !! p = Some q ->
    exists g', erase_node_w fl p g = Done g' /\ consistent fl g' /\ w_induced fl (delete p K) g0 g'.
  Proof.
    intros [Hok Hl] [Hi Hw] Hd Hp. assert (Hlt : p < order (edges g)).
    { unfold order. rewrite (proj1 Hi). by apply lookup_lt_Some in Hp. }
    destruct (ProofsTop.erase_node_all W _ fl (edges g) p Hok Hlt) as (es & He & Her & Hok').
    exists (WGraph es (delete p (weights g))). unfold erase_node_w. rewrite He, weights_erase_delete by lia. split; [done|]. split.
    - split; [done|]. cbn. destruct Her as [Hle _]. unfold order in *. rewrite list.length_delete; [lia|]. apply lookup_lt_is_Some. lia.
    - split; [by eapply induced_erase|]. cbn. rewrite <- !delete_map. by rewrite Hw.
  Qed.

  Local Notation kept pred g := (fun n => pred <$> weights g !! n = Some true).

  Lemma sub_graph_loop_ok fl pred g0 fuel A a g :
    let N := order (edges g0) in
    consistent fl g -> w_induced fl (A ++ seq a (N - a)) g0 g -> NoDup (A ++ seq a (N - a)) -> a <= N -> N <= a + fuel ->
    A = filter (kept pred g0) (seq 0 a) ->
    exists g', sub_graph_loop fuel fl pred (length A) g = Ok (Done g') /\ consistent fl g'
      /\ w_induced fl (filter (kept pred g0) (seq 0 N)) g0 g'.
  Proof.
    intros N. revert A a g. induction fuel as [|fuel IH]; intros A a g Hc Hi Hd Ha Hf HA; cbn [sub_graph_loop];
      rewrite (w_induced_order _ _ _ _ Hi), app_length, seq_length.
    - destruct (Nat.ltb_spec (length A) (length A + (N - a))); [lia|]. exists g. split; [done|]. split; [done|].
      assert (a = N) as -> by lia. rewrite Nat.sub_diag, app_nil_r in Hi. by rewrite <- HA.
    - destruct (Nat.ltb_spec (length A) (length A + (N - a))) as [Hlt|Hge].
      2: { exists g. split; [done|]. split; [done|]. assert (a = N) as -> by lia. rewrite Nat.sub_diag, app_nil_r in Hi. by rewrite <- HA. }
      destruct (N - a) as [|b] eqn:Hb; [lia|]. cbn [seq] in Hi, Hd. assert (Hb' : b = N - S a) by lia.
      assert (Hpos : (A ++ a :: seq (S a) b) !! length A = Some a) by by rewrite list_lookup_middle.
      assert (Hw : Some <$> weights g !! length A = Some (weights g0 !! a)).
      { destruct Hi as [_ Hw]. rewrite <- list_lookup_fmap. change (Some <$> weights g) with (map Some (weights g)). rewrite Hw, list_lookup_fmap, Hpos. done. }
      destruct (weights g !! length A) as [v|] eqn:Hv; [|done]. cbn in Hw. injection Hw as Hw.
      assert (HA' : filter (kept pred g0) (seq 0 (S a)) = A ++ filter (kept pred g0) [a]).
      { rewrite seq_S, list.filter_app. cbn [plus]. by rewrite HA. }
      destruct (pred v) eqn:Hp.
      + replace (S (length A)) with (length (A ++ [a])) by (rewrite app_length; cbn; lia).
        apply (IH _ (S a)); [done| | |lia|lia|].
        * rewrite <- Hb', <- app_assoc. done.
        * rewrite <- Hb', <- app_assoc. done.
        * rewrite HA'. f_equal. rewrite filter_cons, decide_True by (rewrite <- Hw; cbn; congruence). done.
      + destruct (erase_w_induced fl _ g0 g (length A) a Hc Hi Hd Hpos) as (g1 & He & Hc1 & Hi1).
        assert (Hdel : delete (length A) (A ++ a :: seq (S a) b) = A ++ seq (S a) (N - S a)).
        { rewrite <- Hb'. replace (length A) with (length A + 0) by lia. by rewrite delete_middle || (rewrite Nat.add_0_r; apply delete_middle). }
        rewrite Hdel in Hi1. rewrite He. cbn [obind]. apply (IH A (S a)); [done|done| |lia|lia|].
        * rewrite <- Hb'. apply NoDup_app in Hd as (H1 & H2 & H3). apply NoDup_cons in H3 as [_ H3]. apply NoDup_app.
          split; [done|]. split; [|done]. intros x Hx Hx'. apply (H2 x Hx). by right.
        * rewrite HA', filter_cons, decide_False by (rewrite <- Hw; cbn; congruence). cbn. by rewrite app_nil_r.
  Qed.

  Lemma sub_graph_ok fl pred g :
    consistent fl g ->
    exists g', sub_graph fl pred g = Ok (Done g') /\ consistent fl g'
      /\ w_induced fl (satisfying pred (weights g)) g g'.
  Proof.
    intros Hc. unfold satisfying. rewrite (proj2 Hc). apply (sub_graph_loop_ok fl pred g (order (edges g)) [] 0 g Hc); [| |lia|lia|done].
    - rewrite Nat.sub_0_r. by apply w_induced_refl.
    - apply NoDup_ListNoDup, seq_NoDup.
  Qed.
End sub_graph.
