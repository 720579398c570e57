(** Proofs about the comparison of strings. *)
From Coq Require Import Ascii String.
From stdpp Require Import list.
From Verif.Base Require Import Outcome ListLemmas.
From Verif.Text Require Import Model Spec Proofs.
From Verif.Edit Require Import Model ModelSuite Proofs ProofsSuite.
From Verif.TextCheck Require Import Model Spec.
Local Open Scope res_scope.

(** ** Searching *)

Lemma find_from_nl l pos :
  match find_from l [nl] pos with
  | Some r => pos <= r /\ l !! r = Some nl /\ forall j, pos <= j < r -> l !! j <> Some nl
  | None => forall j, pos <= j -> l !! j <> Some nl
  end.
Proof.
  unfold find_from. case_decide as Hp.
  - pose proof (find_first_spec [nl] (drop pos l)) as H. destruct (find_first [nl] (drop pos l)) as [i|]; cbn.
    + destruct H as [H1 H2]. apply occurs_at_char in H1. rewrite lookup_drop in H1. split; [lia|]. split; [done|].
      intros j Hj Hn. specialize (H2 (j - pos)). rewrite occurs_at_char, lookup_drop in H2.
      replace (pos + (j - pos)) with j in H2 by lia. specialize (H2 Hn). lia.
    + intros j Hj Hn. apply H. exists (j - pos). apply occurs_at_char. rewrite lookup_drop.
      by replace (pos + (j - pos)) with j by lia.
  - intros j Hj Hn. apply lookup_lt_Some in Hn. lia.
Qed.

Lemma rfind_nl_spec l pos :
  match rfind_nl l pos with
  | Some q => q <= pos /\ l !! q = Some nl /\ forall j, q < j <= pos -> l !! j <> Some nl
  | None => forall j, j <= pos -> l !! j <> Some nl
  end.
Proof.
  unfold rfind_nl. pose proof (find_last_spec [nl] (take (pos + 1) l)) as H. destruct (find_last [nl] (take (pos + 1) l)) as [q|].
  - destruct H as [H1 H2]. apply occurs_at_char in H1.
    assert (q < pos + 1) as Hq. { apply lookup_lt_Some in H1. rewrite take_length in H1. lia. }
    rewrite lookup_take in H1 by done. split; [lia|]. split; [done|]. intros j Hj Hn. specialize (H2 j).
    rewrite occurs_at_char, lookup_take in H2 by lia. specialize (H2 Hn). lia.
  - intros j Hj Hn. apply H. exists j. apply occurs_at_char. rewrite lookup_take by lia. done.
Qed.

(** ** The first difference *)

Lemma mismatch_take l r : take (mismatch l r) l = take (mismatch l r) r.
Proof.
  revert r. induction l as [|a l IH]; intros [|b r]; cbn; try done. case_decide as H; [|done]. subst. cbn. f_equal. apply IH.
Qed.

Lemma mismatch_le l r : mismatch l r <= Nat.min (List.length l) (List.length r).
Proof. revert r. induction l as [|a l IH]; intros [|b r]; cbn; try lia. case_decide; [|lia]. specialize (IH r). lia. Qed.

Lemma mismatch_lookup l r : l !! mismatch l r = r !! mismatch l r -> l = r.
Proof.
  revert r. induction l as [|a l IH]; intros [|b r]; cbn; try done. case_decide as H.
  - subst. cbn. intros Hl. f_equal. by apply IH.
  - cbn. intros [= ?]. done.
Qed.

Lemma first_difference_mismatch a b : a <> b -> first_difference a b (mismatch a b).
Proof. intros H. split; [apply mismatch_take|]. intros Hl. by apply H, mismatch_lookup. Qed.

Lemma prefix_lookup (a b : text) p j : take p a = take p b -> j < p -> a !! j = b !! j.
Proof. intros H Hj. rewrite <- (lookup_take a p j), <- (lookup_take b p j) by done. by rewrite H. Qed.

(** ** What is shown *)

Lemma start_pos_ok a b p :
  first_difference a b p -> p <= Nat.min (List.length a) (List.length b) ->
  start_pos a b p <= p /\ p - start_pos a b p <= 30 /\
  forall j, start_pos a b p < j < p -> a !! j <> Some nl /\ b !! j <> Some nl.
Proof.
  intros [Ht Hd] Hp. unfold start_pos.
  set (loc := min_npos (newline_backwards p b) (newline_backwards p a)).
  set (offset := match loc with Some loc => Nat.min default_offset (p - loc) | None => default_offset end).
  assert (offset <= 30) as Ho by (unfold offset, default_offset; destruct loc; lia).
  set (start := if decide (p < offset) then 0 else _).
  assert (start = p - offset) as Hs.
  { unfold start. repeat case_decide; lia. }
  split; [lia|]. split; [lia|].
  assert (forall j, j < p -> a !! j = Some nl -> b !! j = Some nl -> exists m, loc = Some m /\ j <= m <= p) as Hl.
  { intros j Hj Ha Hb. unfold loc, newline_backwards.
    pose proof (rfind_nl_spec a p) as Ra. pose proof (rfind_nl_spec b p) as Rb.
    assert (p < List.length a \/ p < List.length b) as Hlen.
    { destruct (decide (p < List.length a)); [by left|]. destruct (decide (p < List.length b)); [by right|]. exfalso. apply Hd.
      rewrite !(proj2 (lookup_ge_None _ _)) by lia. done. }
    assert (forall q, rfind_nl a p = Some q -> j <= q <= p) as Qa.
    { intros q E. rewrite E in Ra. destruct Ra as (?&?&R). destruct (decide (j <= q)); [lia|]. destruct (R j); [lia|done]. }
    assert (forall q, rfind_nl b p = Some q -> j <= q <= p) as Qb.
    { intros q E. rewrite E in Rb. destruct Rb as (?&?&R). destruct (decide (j <= q)); [lia|]. destruct (R j); [lia|done]. }
    assert (rfind_nl a p <> None) as Na. { intros E. rewrite E in Ra. by destruct (Ra j ltac:(lia)). }
    assert (rfind_nl b p <> None) as Nb. { intros E. rewrite E in Rb. by destruct (Rb j ltac:(lia)). }
    destruct (rfind_nl a p) as [qa|]; [|done]. destruct (rfind_nl b p) as [qb|]; [|done].
    specialize (Qa qa eq_refl). specialize (Qb qb eq_refl).
    repeat case_decide; cbn; try (exfalso; lia); eexists; (split; [reflexivity|]); lia. }
  intros j Hj. assert (a !! j = b !! j) as E by (apply (prefix_lookup a b p); [done|lia]).
  assert (a !! j <> Some nl) as Ha.
  { intros Ha. destruct (Hl j ltac:(lia) Ha ltac:(congruence)) as (m&Hm&Hjm).
    unfold offset in Hs. rewrite Hm in Hs. lia. }
  split; [done|]. congruence.
Qed.

Lemma start_pos_context a b p :
  first_difference a b p -> p <= Nat.min (List.length a) (List.length b) -> context a b p (start_pos a b p).
Proof.
  intros [Ht Hd] Hp. unfold start_pos, context.
  set (loc := min_npos (newline_backwards p b) (newline_backwards p a)).
  set (offset := match loc with Some loc => Nat.min default_offset (p - loc) | None => default_offset end).
  set (start := if decide (p < offset) then 0 else _).
  assert (start = p - offset) as Hs.
  { unfold start. repeat case_decide; lia. }
  rewrite Hs. destruct loc as [m|] eqn:El; [|unfold offset, default_offset; lia].
  assert (forall j, j < p -> a !! j = b !! j) as Hj. { intros j Hj. by apply (prefix_lookup a b p). }
  assert (forall l q, newline_backwards p l = Some q -> q <= p /\ l !! q = Some nl /\ forall j, q < j <= p -> l !! j <> Some nl) as Hq.
  { intros l q. unfold newline_backwards. case_decide; [|done]. intros E. pose proof (rfind_nl_spec l p) as R. by rewrite E in R. }
  assert (forall l, is_Some (l !! p) -> newline_backwards p l = None -> forall j, j <= p -> l !! j <> Some nl) as Hnone.
  { intros l Hl%lookup_lt_is_Some. unfold newline_backwards. rewrite decide_True by done. intros E. pose proof (rfind_nl_spec l p) as R. by rewrite E in R. }
  assert (m <= p) as Hm.
  { unfold loc in El. destruct (newline_backwards p b) as [q|] eqn:E1, (newline_backwards p a) as [q'|] eqn:E2; cbn in El; try done;
      injection El as <-; try apply Hq in E1; try apply Hq in E2; lia. }
  unfold offset, default_offset. destruct (decide (30 <= p - m)) as [|Hlt]; [lia|].
  replace (p - Nat.min 30 (p - m)) with m by lia. right. right.
  unfold loc in El. destruct (decide (m = p)) as [->|].
  - right. split; [done|]. destruct (newline_backwards p b) as [q|] eqn:E1, (newline_backwards p a) as [q'|] eqn:E2; cbn in El; try done; injection El as Em.
    + destruct (Hq _ _ E1) as (?&Hb&_). destruct (Hq _ _ E2) as (?&Ha&_). replace q with p in * by lia. replace q' with p in * by lia. congruence.
    + subst q. destruct (Hq _ _ E1) as (?&Hb&_). split; [by right|]. intros Sa _ j Hjp. apply (Hnone a Sa E2). lia.
    + subst q'. destruct (Hq _ _ E2) as (?&Ha&_). split; [by left|]. intros _ Sb j Hjp. rewrite Hj by done. apply (Hnone b Sb E1). lia.
  - left. split; [lia|]. destruct (newline_backwards p b) as [q|] eqn:E1, (newline_backwards p a) as [q'|] eqn:E2; cbn in El; try done; injection El as Em.
    + destruct (Hq _ _ E1) as (?&Hb&_). destruct (Hq _ _ E2) as (?&Ha&_). assert (m = q \/ m = q') as [-> | ->] by lia; [|done]. by rewrite Hj by lia.
    + subst q. destruct (Hq _ _ E1) as (?&Hb&_). by rewrite Hj by lia.
    + subst q'. by destruct (Hq _ _ E2) as (?&Ha&_).
Qed.

Lemma rendered_nl w : w <> [nl] -> rendered (nl :: w) = escaped ++ w.
Proof. intros H. unfold rendered. rewrite decide_True by done. by rewrite decide_False by done. Qed.

Lemma make_ok l p i :
  i <= p -> p <= List.length l -> p - i <= 30 -> (forall j, i < j < p -> l !! j <> Some nl) ->
  exists s t n, make l i = Ok (s, t) /\ shows l p s i n t.
Proof.
  intros Hi Hp H30 Hn. unfold make.
  pose proof (find_from_nl l (i + 1)) as Hf.
  set (count := match find_from l [nl] (i + 1) with Some rpos => rpos - i | None => default_count end).
  assert (1 <= count) as Hc1.
  { unfold count, default_count. destruct (find_from l [nl] (i + 1)); [|lia]. destruct Hf. lia. }
  assert (forall j, i < j < i + count -> l !! j <> Some nl) as Hin.
  { unfold count. intros j Hj. destruct (find_from l [nl] (i + 1)) as [r|]; [apply Hf; lia|apply Hf; lia]. }
  assert (p < i + count \/ p = i + count /\ l !! p = Some nl) as Hcov.
  { unfold count, default_count. destruct (find_from l [nl] (i + 1)) as [r|]; [|lia]. destruct Hf as (?&Hr&_).
    destruct (decide (p < r)); [lia|]. destruct (decide (p = r)) as [->|]; [right; split; [lia|done]|].
    exfalso. by apply (Hn r); [lia|]. }
  destruct (decide (l !! i = Some nl)) as [Hnl|Hnl].
  - rewrite bool_decide_true by done. cbn [andb].
    assert (i < List.length l) as Hil by (by eapply lookup_lt_Some).
    destruct (decide (count = 1)) as [E1|E1].
    + rewrite bool_decide_true by done. cbn [rbind fst snd].
      assert (l !! S i = Some nl) as Hnl2.
      { unfold count in E1. destruct (find_from l [nl] (i + 1)) as [r|]; [|done]. destruct Hf as (?&Hr&_).
        by replace (S i) with r by lia. }
      assert (S i < List.length l) as Hsl by (by eapply lookup_lt_Some).
      assert (take 2 (drop i l) = [nl; nl]) as E2.
      { rewrite (drop_S _ _ _ Hnl). rewrite (drop_S _ _ _ Hnl2). done. }
      rewrite bool_decide_true by lia.
      eexists _, _, 2. split; [reflexivity|]. repeat split; try done; try lia.
      * rewrite E2. change (rendered [nl; nl]) with (escaped ++ escaped).
        by rewrite <- !app_assoc.
      * intros _. by right.
    + rewrite bool_decide_false by done. cbn [rbind fst snd]. rewrite decide_True by lia. cbn [rbind fst snd].
      assert (drop i l = nl :: drop (S i) l) as Ed by (by apply drop_S).
      eexists _, _, (S (Nat.min count (List.length l - S i))). split; [reflexivity|].
      split; [lia|]. split; [lia|]. split; [done|].
      split. { destruct (decide (p < List.length l)); [left; lia|]. right. split; [lia|]. right. apply lookup_ge_None. lia. }
      split; [lia|].
      assert (take (Nat.min count (List.length l - S i)) (drop (S i) l) = take count (drop (S i) l)) as Et.
      { rewrite <- (drop_length l (S i)). rewrite <- take_take. by rewrite (take_ge (drop (S i) l)) by done. }
      split.
      * rewrite Ed. rewrite firstn_cons. rewrite Et. rewrite rendered_nl.
        -- by rewrite <- !app_assoc.
        -- intros E. assert (l !! S i <> Some nl) as H by (apply Hin; lia). apply H.
           assert (take count (drop (S i) l) !! 0 = Some nl) as H0 by (by rewrite E).
           rewrite lookup_take, lookup_drop in H0 by lia. by replace (S i + 0) with (S i) in H0 by lia.
      * split.
        -- intros H. apply bool_decide_true. lia.
        -- intros H. apply bool_decide_eq_true in H. left. lia.
  - rewrite bool_decide_false by done. cbn [andb]. rewrite decide_True by lia. cbn [rbind fst snd].
    eexists _, _, (Nat.min count (List.length l - i)). split; [reflexivity|].
    assert (take (Nat.min count (List.length l - i)) (drop i l) = take count (drop i l)) as Et.
    { rewrite <- (drop_length l i). rewrite <- take_take. by rewrite (take_ge (drop i l)) by done. }
    split; [lia|]. split; [lia|]. split; [done|]. split.
    { destruct (decide (p < List.length l)) as [Hlt|].
      - destruct Hcov as [Hcov|[Hcov1 Hcov2]]; [left; lia|]. right. split; [lia|by left].
      - right. split; [|right; apply lookup_ge_None; lia]. destruct Hcov as [?|[? H]]; [lia|]. apply lookup_lt_Some in H. lia. }
    split; [lia|]. split; [|split].
    + rewrite Et. rewrite app_nil_r. rewrite <- app_assoc. f_equal. f_equal.
      destruct (take count (drop i l)) as [|c w] eqn:E; [done|]. unfold rendered. rewrite decide_False; [done|].
      intros ->. apply Hnl. assert (take count (drop i l) !! 0 = Some nl) as H0 by (by rewrite E).
      rewrite lookup_take, lookup_drop in H0 by lia. by replace (i + 0) with i in H0 by lia.
    + intros H. apply bool_decide_true. lia.
    + intros H. apply bool_decide_eq_true in H. left. lia.
Qed.

Lemma count_nl_lines l : S (count_nl l) = List.length (lines l).
Proof.
  induction l as [|c l IH]; [done|]. unfold count_nl in *. cbn [List.filter lines].
  destruct (decide (c = nl)) as [H|H].
  - rewrite bool_decide_true by done. cbn [List.length]. by rewrite IH.
  - rewrite bool_decide_false by done. destruct (lines l); cbn in *; lia.
Qed.

Lemma build_ok d w a b p :
  first_difference a b p -> p <= Nat.min (List.length a) (List.length b) ->
  exists r, build d w a b p = Ok (Some r) /\ r_difference r = d /\ r_where r = w /\
    exists i n n' t t', shows a p (r_obtained r) i n t /\ shows b p (r_prediction r) i n' t' /\ context a b p i /\
      (r_full r = true <-> i = 0 /\ t = false /\ t' = false).
Proof.
  intros Hd Hp. destruct (start_pos_ok a b p Hd Hp) as (H1&H2&H3). unfold build.
  destruct (make_ok a p (start_pos a b p)) as (s&t&n&->&Hs); [done|lia|done|intros j Hj; by apply H3|].
  cbn [rbind].
  destruct (make_ok b p (start_pos a b p)) as (s'&t'&n'&->&Hs'); [done|lia|done|intros j Hj; by apply H3|].
  cbn [rbind fst snd]. eexists. split; [reflexivity|]. split; [done|]. split; [done|].
  exists (start_pos a b p), n, n', t, t'. split; [done|]. split; [done|]. split; [by apply start_pos_context|]. cbn [r_full].
  rewrite negb_true_iff, !orb_false_iff, bool_decide_eq_false. naive_solver lia.
Qed.

Lemma compare_texts_same a : compare_texts a a = Ok None.
Proof.
  unfold compare_texts.
  assert (mismatch a a = List.length a) as E.
  { induction a as [|c a IH]; [done|]. cbn. rewrite decide_True by done. by rewrite IH. }
  rewrite E. by rewrite (proj2 (lookup_ge_None a (List.length a))) by lia.
Qed.

Lemma compare_texts_differ a b :
  a <> b ->
  exists p r, compare_texts a b = Ok (Some r) /\ first_difference a b p /\ differ_by a b p (r_difference r) /\
    r_where r = (match r_difference r with
                 | Characters _ _ => Some (if decide (List.length (lines (take p b)) = 1) then AtCharacter p
                                           else OnLine (List.length (lines (take p b))))
                 | _ => None
                 end) /\
    exists i n n' t t', shows a p (r_obtained r) i n t /\ shows b p (r_prediction r) i n' t' /\ context a b p i /\
      (r_full r = true <-> i = 0 /\ t = false /\ t' = false).
Proof.
  intros H. pose proof (first_difference_mismatch a b H) as Hd. pose proof (mismatch_le a b) as Hp.
  exists (mismatch a b). unfold compare_texts.
  destruct (a !! mismatch a b) as [c|] eqn:Ea, (b !! mismatch a b) as [c'|] eqn:Eb.
  - edestruct (build_ok (Characters c c')) as (r&->&Er&Ew&Hr); [exact Hd|exact Hp|].
    exists r. split; [done|]. split; [done|]. rewrite Er. split; [done|]. split; [|done]. rewrite Ew. f_equal.
    rewrite <- count_nl_lines. repeat case_decide; try lia; [|done]. f_equal. lia.
  - edestruct (build_ok (Excess c) None) as (r&->&Er&Ew&Hr); [exact Hd|exact Hp|].
    exists r. split; [done|]. split; [done|]. rewrite Er. split; [done|]. split; [|done]. done.
  - edestruct (build_ok (Missing c') None) as (r&->&Er&Ew&Hr); [exact Hd|exact Hp|].
    exists r. split; [done|]. split; [done|]. rewrite Er. split; [done|]. split; [|done]. done.
  - exfalso. apply H, mismatch_lookup. congruence.
Qed.

Lemma compare_texts_passes a b : compare_texts a b = Ok None <-> a = b.
Proof.
  split; [|intros ->; apply compare_texts_same]. intros H. destruct (decide (a = b)) as [|Hn]; [done|].
  destruct (compare_texts_differ a b Hn) as (p&r&E&_). congruence.
Qed.

Lemma first_difference_unique a b p q : first_difference a b p -> first_difference a b q -> p = q.
Proof.
  intros [H1 H2] [H3 H4]. destruct (decide (p < q)) as [Hl|].
  - destruct H2. by apply (prefix_lookup a b q).
  - destruct (decide (q < p)) as [Hl|]; [|lia]. destruct H4. by apply (prefix_lookup a b p).
Qed.

Lemma compare_texts_returns a b : exists o, compare_texts a b = Ok o.
Proof.
  destruct (decide (a = b)) as [->|Hn]; [exists None; apply compare_texts_same|].
  destruct (compare_texts_differ a b Hn) as (p&r&E&_). by eexists.
Qed.

Lemma compare_texts_report a b r :
  compare_texts a b = Ok (Some r) ->
  exists p, first_difference a b p /\ differ_by a b p (r_difference r) /\
    r_where r = (match r_difference r with
                 | Characters _ _ => Some (if decide (List.length (lines (take p b)) = 1) then AtCharacter p
                                           else OnLine (List.length (lines (take p b))))
                 | _ => None
                 end) /\
    exists i n n' t t', shows a p (r_obtained r) i n t /\ shows b p (r_prediction r) i n' t' /\ context a b p i /\
      (r_full r = true <-> i = 0 /\ t = false /\ t' = false).
Proof.
  intros E. destruct (decide (a = b)) as [->|Hn]; [by rewrite compare_texts_same in E|].
  destruct (compare_texts_differ a b Hn) as (p&r'&E'&H). exists p.
  rewrite E in E'. injection E' as <-. exact H.
Qed.

Lemma shows_full l p s n : shows l p s 0 n false -> s = rendered l.
Proof.
  intros (_&_&_&_&Hn&->&Ht&_). rewrite decide_False by lia. rewrite app_nil_r. cbn [app]. rewrite drop_0.
  rewrite take_ge; [done|]. destruct (decide (0 + n < List.length l)) as [H|H]; [by specialize (Ht H)|]. lia.
Qed.

Lemma full_shown a b r : compare_texts a b = Ok (Some r) ->
  r_full r = true -> r_obtained r = rendered a /\ r_prediction r = rendered b.
Proof.
  intros E F. destruct (compare_texts_report a b r E) as (p&_&_&_&i&n&n'&t&t'&Ha&Hb&_&Hf).
  apply Hf in F as (->&->&->). split; by eapply shows_full.
Qed.
