(** Comparisons which allocate are reported. *)
From stdpp Require Import list.
From Coq Require Import ZArith.
From Verif.Base Require Import ListLemmas.
From Verif.Semantics Require Import Model.
From Verif.Allocation Require Import Model Spec Proofs.
Local Open Scope Z_scope.

Section quiet.
  Context {C : container}.
  Lemma bind_quiet {A B} (m : prog C A) (k : A -> prog C B) w : failures (bind C m k) w = [] ->
    exists a w', m w = (a, w', []) /\ failures (k a) w' = [] /\ bind C m k w = k a w'.
  Proof.
    unfold failures, bind. destruct (m w) as [[a w'] l]. destruct (k a w') as [[b w''] l'] eqn:Ek. cbn. intros H. apply app_eq_nil in H as [-> ->].
    exists a, w'. rewrite Ek. done.
  Qed.
  Lemma check_quiet t b (w : state C) : failures (check C t b) w = [] -> check C t b w = (true, snd (b w), []).
  Proof. unfold failures, check. cbn. by destruct (fst (b w)). Qed.
  Lemma guarded_quiet {A} (m : prog C A) w : failures (guarded C m) w = [] -> failures m w = [] /\ exists w', guarded C m w = (true, w', []) /\ snd (fst (m w)) = w'.
  Proof. unfold failures, guarded. destruct (m w) as [[a w'] l]. cbn. intros ->. by eauto. Qed.
End quiet.

Section comparisons.
  Context {V : Type} {E : EqDecision V} {cmp : V -> V -> comparison} {infos : list info} {K : costs V} {moved : V -> V} {streams three : bool}.
  Notation M := (machine cmp infos K moved streams three).

  Definition alike (w w' : heap V) : Prop := (forall k, h_val w' k = h_val w k) /\ (forall k i, h_id w' k i = h_id w k i).
  Lemma alike_refl w : alike w w.
  Proof. done. Qed.
  Lemma alike_trans w1 w2 w3 : alike w1 w2 -> alike w2 w3 -> alike w1 w3.
  Proof. intros [H1 H2] [H3 H4]. split; intros; [by rewrite H3, H1|by rewrite H4, H2]. Qed.
  Lemma compare_alike c w a b : alike w (compare K c w a b).
  Proof. done. Qed.

  Definition without (c : nat) (v : V) : Prop := forall i n, infos !! i = Some n -> k_compare K i c v v = (0%nat, 0%nat).

  Lemma consistent_quiet c (f : heap V -> nat -> bool * heap V) (w : heap V) a b : (forall w o, snd (f w o) = compare K c w o o) ->
    failures (consistent M infos c a b f) w = [] ->
    exists w', consistent M infos c a b f w = (true, w', []) /\ alike w w' /\ without c (h_val w a) /\ without c (h_val w b).
  Proof.
    intros Hf H.
    assert (forall o w, failures (consistent_one M infos c o f) w = [] ->
      exists b w', consistent_one M infos c o f w = (b, w', []) /\ alike w w' /\ without c (h_val w o)) as H1.
    { clear H w. intros o w H. unfold consistent_one in *.
      apply bind_quiet in H as (p & w1 & E1 & H & ->). injection E1 as <- <-.
      apply bind_quiet in H as (b1 & w1 & E1 & H & ->).
      assert (failures (check M (Value (Inconsistent c o)) (fun w => f w o)) w = []) as Hq by (exact (f_equal snd E1)).
      apply (check_quiet (C := M)) in Hq. rewrite Hq in E1. injection E1 as <- <-. cbn iota in *.
      apply guarded_quiet in H as [H (w' & Eg & Ew)].
      erewrite (each_eq (C := M)) in Ew; [|intros i n Hi; apply (allocation_eq (C := M))]. cbn [fst snd] in Ew. subst w'.
      exists true, (snd (f w o)). split_and!; [exact Eg|rewrite Hf; apply compare_alike|].
      intros i n Hi. unfold failures in H. erewrite (each_eq (C := M)) in H; [|intros j n' Hj; apply (allocation_eq (C := M))].
      cbn [snd] in H. rewrite per_nil in H. specialize (H i n Hi). cbn in H. rewrite Hf in H. cbn in H. rewrite !Nat.eqb_refl in H.
      destruct (k_compare K i c (h_val w o) (h_val w o)) as [p q]. cbn in H.
      destruct (_ =? 0) eqn:Hz in H; [|done]. apply Z.eqb_eq in Hz. f_equal; lia. }
    unfold consistent in *. apply guarded_quiet in H as [H (w' & Eg & Ew)]. exists w'. split; [exact Eg|].
    apply bind_quiet in H as (b1 & w1 & E1 & H & E2). rewrite E2 in Ew.
    destruct (H1 a w) as (b2 & w2 & E3 & A2 & N2); [exact (f_equal snd E1)|]. pose proof (eq_trans (eq_sym E3) E1) as X. clear E1. injection X as <- <-.
    destruct (H1 b w2 H) as (b3 & w3 & E4 & A3 & N3). rewrite E4 in Ew. cbn in Ew. subst w'.
    split_and!; [by eapply alike_trans|done|]. by rewrite <- (proj1 A2).
  Qed.

  Lemma prerequisites_quiet order (w : heap V) a b : failures (prerequisites M infos order a b None) w = [] ->
    forall v, v = h_val w a \/ v = h_val w b ->
    without 0 v /\ without 1 v /\ (order <> None -> without 2 v /\ without 3 v /\ without 4 v /\ without 5 v /\ (three = true -> without 6 v)).
  Proof.
    intros H v Hv. unfold prerequisites in H. apply bind_quiet in H as (p & w1 & E1 & H & _).
    assert (failures (clone_prerequisites M infos a b None) w = []) as Hc by (exact (f_equal snd E1)).
    unfold clone_prerequisites in Hc. apply bind_quiet in Hc as (p2 & w2 & E2 & Hc & E2').
    assert (failures (equality_prerequisites M infos a b) w = []) as He by (exact (f_equal snd E2)).
    unfold equality_prerequisites in He. apply bind_quiet in He as (p3 & w3 & E3 & He & E3').
    destruct (consistent_quiet 0 (fun w u => c_eq M w u u) w a b) as (w4 & E4 & A4 & N0a & N0b); [done|exact (f_equal snd E3)|].
    pose proof (eq_trans (eq_sym E4) E3) as X. clear E3. injection X as <- <-.
    apply bind_quiet in He as (p5 & w5 & E5 & He & E5').
    destruct (consistent_quiet 1 (fun w u => neg M (c_ne M w u u)) w4 a b) as (w6 & E6 & A6 & N1a & N1b); [done|exact (f_equal snd E5)|].
    pose proof (eq_trans (eq_sym E6) E5) as X. clear E5. injection X as <- <-. cbn [andb] in *. apply (check_quiet (C := M)) in He.
    assert (equality_prerequisites M infos a b w = (true, snd (c_ne M w6 a b), [])) as Ee.
    { unfold equality_prerequisites. rewrite E3', E5'. exact He. }
    rewrite Ee in E2. injection E2 as <- <-. cbn iota in *.
    assert (p = true /\ w1 = snd (c_ne M w6 a b)) as [-> ->].
    { unfold clone_prerequisites in E1. rewrite E2' in E1. by injection E1 as <- <-. }
    cbn iota in H.
    assert (alike w w6) as A06 by (by eapply alike_trans).
    rewrite !(proj1 A4) in *.
    split_and!.
    - by destruct Hv as [-> | ->].
    - by destruct Hv as [-> | ->].
    - intros Hn. destruct order as [o|]; [|done]. apply bind_quiet in H as (p7 & w7 & E7 & H & _).
      assert (w7 = snd (c_ne M w6 a b)) as ->. { unfold check in E7. cbn in E7. by injection E7. }
      assert (p7 = true) as ->. { unfold check in E7. cbn in E7. by destruct o; inversion E7. } cbn iota in H. clear E7.
      apply bind_quiet in H as (p8 & w8 & E8 & _ & _).
      assert (failures (ordering_consistency M infos a b) (snd (c_ne M w6 a b)) = []) as Ho by (exact (f_equal snd E8)).
      assert (alike w (snd (c_ne M w6 a b))) as Aw by done.
      revert Ho Aw. generalize (snd (c_ne M w6 a b)). clear -Hv. intros w0 Ho Aw.
      assert (v = h_val w0 a \/ v = h_val w0 b) as Hv0 by (by rewrite !(proj1 Aw)). clear Hv Aw w.
      unfold ordering_consistency in Ho. apply bind_quiet in Ho as (p9 & w9 & E9 & _ & _).
      assert (failures (ordering_operators M infos a b) w0 = []) as Hq by (exact (f_equal snd E9)). clear E9.
      unfold ordering_operators in Hq. apply guarded_quiet in Hq as [Hq _].
      apply bind_quiet in Hq as (q1 & w1 & E1 & Hq & _).
      destruct (consistent_quiet 2 (fun w u => neg M (c_lt M w u u)) w0 a b) as (w1' & E1' & A1 & N2a & N2b); [done|exact (f_equal snd E1)|].
      pose proof (eq_trans (eq_sym E1') E1) as X. clear E1. injection X as <- <-.
      apply bind_quiet in Hq as (q2 & w2 & E2 & Hq & _).
      destruct (consistent_quiet 4 (fun w u => c_le M w u u) w1' a b) as (w2' & E2' & A2 & N4a & N4b); [done|exact (f_equal snd E2)|].
      pose proof (eq_trans (eq_sym E2') E2) as X. clear E2. injection X as <- <-.
      apply bind_quiet in Hq as (q3 & w3 & E3 & Hq & _).
      destruct (consistent_quiet 3 (fun w u => neg M (c_gt M w u u)) w2' a b) as (w3' & E3' & A3 & N3a & N3b); [done|exact (f_equal snd E3)|].
      pose proof (eq_trans (eq_sym E3') E3) as X. clear E3. injection X as <- <-.
      apply bind_quiet in Hq as (q4 & w4 & E4 & Hq & _).
      destruct (consistent_quiet 5 (fun w u => c_ge M w u u) w3' a b) as (w4' & E4' & A4 & N5a & N5b); [done|exact (f_equal snd E4)|].
      pose proof (eq_trans (eq_sym E4') E4) as X. clear E4. injection X as <- <-.
      rewrite !(proj1 A3), !(proj1 A2), !(proj1 A1) in N5a, N5b. rewrite !(proj1 A2), !(proj1 A1) in N3a, N3b. rewrite !(proj1 A1) in N4a, N4b.
      split_and!; [by destruct Hv0 as [-> | ->]..|].
      intros H3. cbn [c_three machine] in Hq. rewrite H3 in Hq.
      destruct (consistent_quiet 6 (fun w u => (match cmp (h_val w u) (h_val w u) with Eq => true | _ => false end, compare K 6 w u u)) w4' a b)
        as (w5' & E5' & A5 & N6a & N6b); [done|exact Hq|].
      rewrite !(proj1 A4), !(proj1 A3), !(proj1 A2), !(proj1 A1) in N6a, N6b. by destruct Hv0 as [-> | ->].
  Qed.

  Lemma regular_quiet m order (w : heap V) : failures (regular_semantics M infos m order) w = [] -> failures (prerequisites M infos order 0 1 None) w = [].
  Proof.
    intros H. unfold regular_semantics in H. apply bind_quiet in H as (p & w1 & E1 & _ & _).
    assert (failures (guarded M (regular_body M infos m order)) w = []) as Hg by (exact (f_equal snd E1)). clear E1.
    apply guarded_quiet in Hg as [Hg _]. unfold regular_body in Hg.
    apply bind_quiet in Hg as (p2 & w2 & E2 & Hg & _). injection E2 as _ <-. apply bind_quiet in Hg as (p3 & w3 & E3 & Hg & _). injection E3 as _ <-.
    apply bind_quiet in Hg as (p4 & w4 & E4 & _ & _). unfold failures. by rewrite E4.
  Qed.

  Lemma comparisons_quiet m order (w : heap V) i n v : failures (regular_semantics M infos m order) w = [] ->
    infos !! i = Some n -> v = h_val w 0 \/ v = h_val w 1 ->
    (forall c, (c < 2)%nat -> k_compare K i c v v = (0%nat, 0%nat)) /\
    (forall c, order <> None -> (c < 6)%nat \/ (c = 6%nat /\ three = true) -> k_compare K i c v v = (0%nat, 0%nat)).
  Proof.
    intros H Hi Hv. destruct (prerequisites_quiet order w 0 1 (regular_quiet m order w H) v Hv) as (N0 & N1 & N). split.
    - intros [|[|c]] Hc; [by apply (N0 i n)|by apply (N1 i n)|lia].
    - intros c Ho Hc. destruct (N Ho) as (N2 & N3 & N4 & N5 & N6).
      destruct c as [|[|[|[|[|[|[|c]]]]]]]; [by apply (N0 i n)|by apply (N1 i n)|by apply (N2 i n)|by apply (N3 i n)|by apply (N4 i n)|by apply (N5 i n)| |].
      + destruct Hc as [Hc|[_ Hc]]; [lia|]. by apply (N6 Hc i n).
      + destruct Hc as [Hc|[Hc _]]; lia.
  Qed.
End comparisons.
