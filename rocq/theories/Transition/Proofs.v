From Coq Require Import Ascii.
From stdpp Require Import list list_numbers.
From Verif.Base Require Import Outcome ListLemmas.
From Verif.Text Require Import Model ProofsIndent.
From Verif.Graph Require Import Model ModelWeighted ModelTraverse Spec SpecTraverse ProofsTraverse ProofsTraverseTop.
From Verif.Transition Require Import Model Spec.
Local Open Scope res_scope.

Section proofs.
  Context {T : Type}.
  Implicit Types g : tgraph T.

  Lemma make_message_ok desc i j (w : transition T) : make_message desc i j w = Ok (wanted_message desc i j w).
  Proof.
    unfold make_message. rewrite append_lines_spec; [done|]. apply Forall_cons; split; [lia|]. apply Forall_cons; split; [lia|by constructor].
  Qed.

  Lemma check_events_app v desc g xs ys : check_events v desc g (xs ++ ys) =
    (let? a := check_events v desc g xs in let? b := check_events v desc g ys in Ok (a ++ b)).
  Proof.
    induction xs as [|x xs IH]; cbn [app check_events]; [cbn; by destruct (check_events v desc g ys)|].
    destruct x; rewrite IH; try done. destruct (check_edge v desc g n k) as [c| | |]; cbn; [|done..].
    destruct (check_events v desc g xs) as [a| | |]; cbn; [|done..]. by destruct (check_events v desc g ys).
  Qed.

  Lemma rget_some {A} (l : list A) i x : l !! i = Some x -> rget l i = Ok x.
  Proof. unfold rget. by intros ->. Qed.

  Lemma check_edge_ok v desc g i k e : in_range (edges g) -> length (weights g) = length (edges g) -> row (edges g) i !! k = Some e ->
    exists x y, weights g !! i = Some x /\ weights g !! tgt e = Some y /\ check_edge v desc g i k = Ok (wanted_call v desc i (tgt e) x y (wt e)).
  Proof.
    intros Hin Hl He. assert (Hi : i < length (weights g)).
    { rewrite Hl. unfold row in He. destruct (edges g !! i) eqn:E; [by apply lookup_lt_Some in E|done]. }
    pose proof (Hin i e ltac:(by eapply elem_of_list_lookup_2)) as Ht. rewrite <- Hl in Ht.
    destruct (lookup_lt_is_Some_2 _ _ Hi) as [x Hx]. destruct (lookup_lt_is_Some_2 _ _ Ht) as [y Hy]. exists x, y. split; [done|]. split; [done|].
    unfold row in He. destruct (edges g !! i) as [r|] eqn:Er; [|done]. cbn in He.
    unfold check_edge. rewrite (rget_some _ _ _ Er). cbn [rbind]. rewrite (rget_some _ _ _ He). cbn [rbind]. rewrite make_message_ok. cbn [rbind]. rewrite (rget_some _ _ _ Hx), (rget_some _ _ _ Hy). done.
  Qed.

  Lemma check_firsts v desc g i ks : in_range (edges g) -> length (weights g) = length (edges g) ->
    Forall (fun k => k < length (row (edges g) i)) ks ->
    exists cs, check_events v desc g (map (First i) ks) = Ok cs
      /\ Forall2 (fun c k => exists e x y, row (edges g) i !! k = Some e /\ weights g !! i = Some x /\ weights g !! tgt e = Some y
           /\ c = wanted_call v desc i (tgt e) x y (wt e)) cs ks.
  Proof.
    intros Hin Hl. induction 1 as [|k ks Hk _ (cs & Hcs & HF)]; [exists []; split; [done|constructor]|].
    destruct (lookup_lt_is_Some_2 _ _ Hk) as [e He]. destruct (check_edge_ok v desc g i k e Hin Hl He) as (x & y & Hx & Hy & Hc).
    exists (wanted_call v desc i (tgt e) x y (wt e) :: cs). split.
    - cbn [map check_events]. rewrite Hc. cbn [rbind]. by rewrite Hcs.
    - constructor; [|done]. by exists e, x, y.
  Qed.

  Lemma visit_calls v desc g i l : in_range (edges g) -> length (weights g) = length (edges g) -> visit_of (edges g) BreadthFirst i l ->
    (forall n k, Second n k ∉ l) -> exists cs, check_events v desc g l = Ok cs /\ calls_from v desc g i cs.
  Proof.
    intros Hin Hl (m & -> & Hm) Hno. assert (m = map (First i) (positions BreadthFirst (row (edges g) i))) as ->.
    { assert (Hno' : forall n k, Second n k ∉ m) by (intros n k Hi; apply (Hno n k); right; apply elem_of_app; by left). clear Hno. revert Hno'. clear -Hm.
      induction Hm as [|x k m ks Hx _ IH]; intros Hno; [done|]. cbn [map]. f_equal.
      - destruct Hx as [-> | ->]; [done|]. destruct (Hno i k). left.
      - apply IH. intros n k' H. apply (Hno n k'). by right. }
    cbn [positions]. destruct (check_firsts v desc g i (seq 0 (length (row (edges g) i))) Hin Hl) as (cs & Hcs & HF).
    { apply Forall_forall. intros k [_ Hk]%elem_of_seq. lia. }
    exists cs. split.
    - change (Before i :: ?l) with ([Before i] ++ l). rewrite !check_events_app. cbn [check_events]. cbn [rbind app]. rewrite Hcs. cbn. by rewrite app_nil_r.
    - unfold calls_from. apply Forall2_same_length_lookup_2.
      + apply Forall2_length in HF. by rewrite seq_length in HF.
      + intros k c e Hc He. destruct (Forall2_lookup_l _ _ _ _ _ HF Hc) as (k' & Hk & e' & x & y & He' & Hx & Hy & ->).
        apply lookup_seq in Hk as [-> _]. cbn in He'. rewrite He in He'. injection He' as <-. by exists x, y.
  Qed.

  Lemma check_all v desc g : in_range (edges g) -> length (weights g) = length (edges g) ->
    exists ns css, check v desc g = Ok (concat css) /\ ns ≡ₚ seq 0 (length (edges g)) /\ Forall2 (calls_from v desc g) ns css.
  Proof.
    intros Hin Hl. unfold check. destruct (decide (0 < order (edges g))) as [H0|H0].
    - destruct (traverse_nodes _ Directed BreadthFirst None true 0 (edges g) Hin I I H0) as (es & He & Hnd & _ & _ & Hw).
      destruct (traverse_visits _ Directed BreadthFirst None true 0 (edges g) es Hin I I H0 He) as (bs & -> & Hbs).
      pose proof (fun n k => traverse_directed _ BreadthFirst None true 0 (edges g) _ n k Hin I I H0 He) as Hno.
      rewrite He. cbn [rbind]. exists (befores (concat bs)).
      assert (Hc : exists css, check_events v desc g (concat bs) = Ok (concat css) /\ Forall2 (calls_from v desc g) (befores (concat bs)) css).
      { clear Hnd Hw He. revert Hbs Hno. generalize (befores (concat bs)) as ns. intros ns Hbs. induction Hbs as [|n b ns bs Hb _ IH]; intros Hno.
        - exists []. split; [done|constructor].
        - cbn [concat] in *. destruct IH as (css & Hcs & HF). { intros n' k Hi. apply (Hno n' k), elem_of_app. by right. }
          destruct (visit_calls v desc g n b Hin Hl Hb) as (cs & Hc & Hcf). { intros n' k Hi. apply (Hno n' k), elem_of_app. by left. }
          exists (cs :: css). split; [|by constructor]. rewrite check_events_app, Hc. cbn [rbind]. by rewrite Hcs. }
      destruct Hc as (css & Hc & HF). exists css. split; [done|]. split; [|done].
      apply NoDup_Permutation; [done|apply NoDup_seq|]. intros n. rewrite Hw, elem_of_seq. cbn. lia.
    - unfold traverse. replace (0 <? length (edges g)) with false by (unfold order in H0; lia). cbn. exists [], []. split; [done|].
      unfold order in H0. replace (length (edges g)) with 0 by lia. split; [done|constructor].
  Qed.
End proofs.
