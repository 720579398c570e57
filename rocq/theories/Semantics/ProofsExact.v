(** What the checks find out about types whose operations depend on values only. *)
From stdpp Require Import list.
From Verif.Base Require Import Compare.
From Verif.Semantics Require Import Model Spec Proofs ProofsRegular.

Section exact.
  Context {V : Type} `{!EqDecision V} {cmp : V -> V -> comparison} (O : total_cmp cmp) (T : operations V).

  Lemma machine_equality (w : world (machine cmp T)) a b : equality_holds (S := machine cmp T) w a b <-> w a <> w b.
  Proof.
    unfold equality_holds. cbn. split.
    - intros (_&_&H). by apply negb_true_iff, bool_decide_eq_false in H.
    - intros H. rewrite !bool_decide_eq_true_2 by done. rewrite bool_decide_eq_false_2 by done. done.
  Qed.

  Lemma machine_ordering (w : world (machine cmp T)) a b : w a <> w b -> ordering_holds (S := machine cmp T) (cmp (w a) (w b)) w a b.
  Proof.
    intros H. unfold ordering_holds, order_holds, three_consistent. cbn.
    assert (cmp (w a) (w b) <> Eq) as Hne. { intros E. by apply (cmp_eq O) in E. }
    pose proof (cmp_opp O (w a) (w b)) as Ho. rewrite !(cmp_refl O). split; [done|]. split.
    { repeat split; try done; by injection H0 as <-; apply (cmp_refl O). }
    destruct (cmp (w a) (w b)) eqn:E; [done| |]; rewrite Ho; cbn; repeat split; try done; intros three [= <-]; done.
  Qed.

  Definition trial lc la m x y : Prop :=
    x <> y /\ t_copy T x = x /\ t_assign T (t_copy T x) y = y /\ t_self_assign T (t_assign T (t_copy T x) y) = y /\
    fst (t_move T (t_self_assign T (t_assign T (t_copy T x) y))) = y /\
    (forall l, lc = Some l -> snd (t_move T (t_self_assign T (t_assign T (t_copy T x) y))) = l y) /\
    fst (t_move_assign T (t_copy T x) (t_copy T y)) = y /\
    (forall l, la = Some l -> snd (t_move_assign T (t_copy T x) (t_copy T y)) = l x y) /\
    snd (t_swap T (t_copy T x) (t_copy T y)) = x /\ fst (t_swap T (t_copy T x) (t_copy T y)) = y /\
    t_self_swap T (snd (t_swap T (t_copy T x) (t_copy T y))) = x /\
    (forall f, m = Some f -> f (t_copy T y) <> y /\ t_assign T (f (t_copy T y)) y = y /\ f (t_assign T (f (t_copy T y)) y) <> y) /\
    (forall write read, t_serialize T = Some (write, read) -> read (write y) (t_copy T x) = y).

  Lemma machine_trial sorted lc la m x y :
    regular_facts (S := machine cmp T) (ask cmp T sorted lc la m x y) (pair_world x y) <-> trial lc la m x y.
  Proof.
    unfold regular_facts, trial, moved_from. cbv zeta. rewrite machine_equality.
    split.
    - intros (H1&_&H2&H3&H4&H5&H6&H7&H8&H9&H10&H11&w12&H12&H13).
      cbn in *. rewrite ?bool_decide_eq_true in *.
      split; [done|]. split; [done|]. split; [done|]. split; [done|]. split; [done|].
      split. { intros l ->. cbn in H6. by rewrite bool_decide_eq_true in H6. }
      split; [done|].
      split. { intros l ->. cbn in H8. by rewrite bool_decide_eq_true in H8. }
      split; [done|]. split; [done|]. split; [done|].
      assert (w12 0 = x /\ w12 1 = y) as [W0 W1].
      { destruct m; cbn in H12; [destruct H12 as [-> _]|rewrite H12]; done. }
      split.
      { intros f ->. cbn in H12. destruct H12 as (_&H12&H14&H15). apply negb_true_iff, bool_decide_eq_false in H12.
        apply negb_true_iff, bool_decide_eq_false in H15. apply bool_decide_eq_true in H14. done. }
      intros write read Hs. rewrite Hs in H13. specialize (H13 _ _ eq_refl). cbn in H13. rewrite bool_decide_eq_true, W0, W1 in H13. done.
    - intros (H1&H2&H3&H4&H5&H6&H7&H8&H9&H10&H11&H12&H13). split; [done|].
      split. { destruct sorted; [|done]. exact (machine_ordering (pair_world x y) 0 1 H1). }
      cbn. rewrite !bool_decide_eq_true.
      split; [done|]. split; [done|]. split; [done|]. split; [done|].
      split. { destruct lc as [l|]; [|done]. cbn. by rewrite bool_decide_eq_true, (H6 l). }
      split; [done|].
      split. { destruct la as [l|]; [|done]. cbn. by rewrite bool_decide_eq_true, (H8 l). }
      split; [done|]. split; [done|]. split; [done|].
      assert (forall w12 : nat -> V, w12 0 = x /\ w12 1 = y -> forall write read,
        match t_serialize T with
        | Some (write, read) => Some (fun (w : nat -> V) a => write (w a), fun (w : nat -> V) s b => set w b (read s (w b)))
        | None => None
        end = Some (write, read) -> bool_decide (read (set w12 10 (t_copy T (w12 0))) (write (set w12 10 (t_copy T (w12 0))) 1) 10 10 =
          read (set w12 10 (t_copy T (w12 0))) (write (set w12 10 (t_copy T (w12 0))) 1) 10 1) = true) as Hser.
      { intros w12 [W0 W1] write read Hs. destruct (t_serialize T) as [[wr rd]|] eqn:Es; [|done]. injection Hs as <- <-.
        cbn. rewrite bool_decide_eq_true, W0, W1. by apply H13. }
      destruct m as [f|]; cbn.
      + destruct (H12 f eq_refl) as (M1&M2&M3). eexists. split.
        { split; [reflexivity|]. rewrite !bool_decide_eq_true, !negb_true_iff, !bool_decide_eq_false. done. }
        apply Hser. done.
      + eexists. split; [reflexivity|]. apply Hser. done.
  Qed.

  Lemma regular_exact sorted lc la m :
    (exists u v : V, u <> v) ->
    (forall x y, x <> y -> failures (regular_semantics (machine cmp T) (ask cmp T sorted lc la m x y)) (pair_world x y) = []) <->
    regular T /\
    (forall l v, lc = Some l -> snd (t_move T v) = l v) /\
    (forall l u v, la = Some l -> u <> v -> snd (t_move_assign T u v) = l u v) /\
    (forall f v, m = Some f -> f v <> v).
  Proof.
    intros (u0&v0&Huv).
    assert (forall v : V, exists u, u <> v) as Hother.
    { intros v. destruct (decide (u0 = v)) as [<-|]; [by exists v0|by exists u0]. }
    assert ((forall x y, x <> y -> failures (regular_semantics (machine cmp T) (ask cmp T sorted lc la m x y)) (pair_world x y) = [])
      <-> forall x y, x <> y -> trial lc la m x y) as ->.
    { split; intros H x y Hxy.
      - specialize (H x y Hxy). apply regular_semantics_passes in H as [_ H]. by apply machine_trial in H.
      - apply regular_semantics_passes. split; [done|]. apply machine_trial. by apply H. }
    split.
    - intros H.
      assert (forall v, t_copy T v = v) as Hc. { intros v. destruct (Hother v) as [u Hu]. by destruct (H v u) as (_&?&_). }
      assert (forall x y, x <> y -> t_assign T x y = y) as Ha. { intros x y Hxy. destruct (H x y Hxy) as (_&_&Ha&_). by rewrite Hc in Ha. }
      assert (forall v, t_self_assign T v = v) as Hs.
      { intros v. destruct (Hother v) as [u Hu]. destruct (H u v Hu) as (_&_&_&Hs&_). by rewrite Hc, Ha in Hs. }
      split_and!.
      + split; try done.
        * intros v. destruct (Hother v) as [u Hu]. destruct (H u v Hu) as (_&_&_&_&Hm&_). by rewrite Hc, Ha, Hs in Hm.
        * intros u v Hne. destruct (H u v Hne) as (_&_&_&_&_&_&Hm&_). by rewrite !Hc in Hm.
        * intros u v Hne. destruct (H u v Hne) as (_&_&_&_&_&_&_&_&S1&S2&_). rewrite !Hc in *. by destruct (t_swap T u v); cbn in *; subst.
        * intros v. destruct (Hother v) as [u Hu]. destruct (H v u) as (_&_&_&_&_&_&_&_&S1&_&S3&_); [done|]. rewrite S1 in S3. done.
        * intros write read u v Hser Hne. destruct (H u v Hne) as (_&_&_&_&_&_&_&_&_&_&_&_&Hz). specialize (Hz _ _ Hser). by rewrite Hc in Hz.
      + intros l v Hl. destruct (Hother v) as [u Hu]. destruct (H u v Hu) as (_&_&_&_&_&Hm&_). specialize (Hm l Hl). by rewrite Hc, Ha, Hs in Hm.
      + intros l u v Hl Hne. destruct (H u v Hne) as (_&_&_&_&_&_&_&Hm&_). specialize (Hm l Hl). by rewrite !Hc in Hm.
      + intros f v Hf. destruct (Hother v) as [u Hu]. destruct (H u v Hu) as (_&_&_&_&_&_&_&_&_&_&_&Hm&_). destruct (Hm f Hf) as [Hm1 _]. by rewrite Hc in Hm1.
    - intros ([R1 R2 R3 R4 R5 R6 R7 R8]&L1&L2&M) x y Hxy. unfold trial. rewrite !R1, !R2, !R3, R4, R5, R6 by done. cbn [fst snd]. rewrite R7.
      split_and!; try done.
      + intros l Hl. by apply L1.
      + intros l Hl. by apply L2.
      + intros f Hf. rewrite R2 by by apply M. split_and!; try done; by apply M.
      + intros write read Hs. by apply R8.
  Qed.

  (** Move-only types *)
  Definition trial_move_only lc la x y : Prop :=
    x <> y /\ fst (t_move T x) = x /\ (forall l, lc = Some l -> snd (t_move T x) = l x) /\
    let z := fst (t_move T (fst (t_move T x))) in
    snd (t_swap T z y) = x /\ fst (t_swap T z y) = y /\ t_self_swap T (snd (t_swap T z y)) = x /\
    let p := t_move_assign T (t_self_swap T (snd (t_swap T z y))) (fst (t_swap T z y)) in
    fst p = y /\ (forall l, la = Some l -> snd p = l x y) /\
    (forall write read, t_serialize T = Some (write, read) -> read (write y) (snd (t_move T x)) = y).

  Lemma machine_trial_move_only sorted lc la x y :
    move_only_facts (S := machine cmp T) (ask_move_only cmp T sorted lc la x y) (twins cmp T x y) (pair_world x y) <-> trial_move_only lc la x y.
  Proof.
    unfold move_only_facts, trial_move_only, moved_from. cbv zeta. rewrite machine_equality.
    split.
    - intros (H1&_&_&H2&H3&H4&H5&H6&H7&H8&H9).
      cbn in *. rewrite ?bool_decide_eq_true in *.
      split; [done|]. split; [done|].
      split. { intros l ->. cbn in H3. by rewrite bool_decide_eq_true in H3. }
      split; [done|]. split; [done|]. split; [done|]. split; [done|].
      split. { intros l ->. cbn in H8. by rewrite bool_decide_eq_true in H8. }
      intros write read Hs. rewrite Hs in H9. specialize (H9 _ _ eq_refl). cbn in H9. by rewrite bool_decide_eq_true in H9.
    - intros (H1&H2&H3&H4&H5&H6&H7&H8&H9). split; [done|].
      split. { cbn. by rewrite !bool_decide_eq_true. }
      split. { destruct sorted; [|done]. exact (machine_ordering (pair_world x y) 0 1 H1). }
      cbn. rewrite !bool_decide_eq_true.
      split; [done|].
      split. { destruct lc as [l|]; [|done]. cbn. by rewrite bool_decide_eq_true, (H3 l). }
      split; [done|]. split; [done|]. split; [done|]. split; [done|].
      split. { destruct la as [l|]; [|done]. cbn. by rewrite bool_decide_eq_true, (H8 l). }
      intros write read Hs. destruct (t_serialize T) as [[wr rd]|] eqn:Es; [|done]. injection Hs as <- <-. cbn. rewrite bool_decide_eq_true. by apply H9.
  Qed.

  Lemma move_only_exact other sorted lc la :
    (exists u v : V, u <> v) ->
    (forall x y, x <> y ->
       failures (move_only_semantics (machine cmp T) other (ask_move_only cmp T sorted lc la x y) (twins cmp T x y)) (pair_world x y) = []) <->
    move_only T /\
    (forall l v, lc = Some l -> snd (t_move T v) = l v) /\
    (forall l u v, la = Some l -> u <> v -> snd (t_move_assign T u v) = l u v).
  Proof.
    intros (u0&v0&Huv).
    assert (forall v : V, exists u, u <> v) as Hother.
    { intros v. destruct (decide (u0 = v)) as [<-|]; [by exists v0|by exists u0]. }
    assert ((forall x y, x <> y ->
       failures (move_only_semantics (machine cmp T) other (ask_move_only cmp T sorted lc la x y) (twins cmp T x y)) (pair_world x y) = [])
      <-> forall x y, x <> y -> trial_move_only lc la x y) as ->.
    { split; intros H x y Hxy.
      - specialize (H x y Hxy). apply move_only_semantics_passes in H. by apply machine_trial_move_only in H.
      - apply move_only_semantics_passes. apply machine_trial_move_only. by apply H. }
    unfold trial_move_only. cbv zeta. split.
    - intros H.
      assert (forall v, fst (t_move T v) = v) as Hc. { intros v. destruct (Hother v) as [u Hu]. by destruct (H v u) as (_&?&_). }
      assert (forall u v, u <> v -> t_swap T u v = (v, u)) as Hsw.
      { intros u v Hne. destruct (H u v Hne) as (_&_&_&S1&S2&_). rewrite !Hc in *. by destruct (t_swap T u v); cbn in *; subst. }
      assert (forall v, t_self_swap T v = v) as Hss.
      { intros v. destruct (Hother v) as [u Hu]. destruct (H v u) as (_&_&_&S1&_&S3&_); [done|]. rewrite S1 in S3. done. }
      split_and!.
      + split; try done.
        * intros u v Hne. destruct (H u v Hne) as (_&_&_&_&_&_&Hm&_). rewrite !Hc, Hsw in Hm by done. cbn in Hm. by rewrite Hss in Hm.
        * intros write read u v Hser Hne. destruct (H u v Hne) as (_&_&_&_&_&_&_&_&Hz). by apply Hz.
      + intros l v Hl. destruct (Hother v) as [u Hu]. destruct (H v u) as (_&_&Hm&_); [done|]. by apply Hm.
      + intros l u v Hl Hne. destruct (H u v Hne) as (_&_&_&_&_&_&_&Hm&_). specialize (Hm l Hl). rewrite !Hc, Hsw in Hm by done. cbn in Hm.
        by rewrite Hss in Hm.
    - intros ([R4 R5 R6 R7 R8]&L1&L2) x y Hxy. rewrite !R4, R6 by done. cbn [fst snd]. rewrite R7, R5 by done.
      split_and!; try done.
      + intros l Hl. by apply L1.
      + intros l Hl. by apply L2.
      + intros write read Hs. by apply R8.
  Qed.
End exact.
