(** Checks of types with value semantics pass; what passing says about types. *)
From stdpp Require Import list.
From Verif.Base Require Import Compare.
From Verif.Semantics Require Import Model Spec Proofs.

Section complete.
  Context {S : subject} {V : Type} {val : world S -> nat -> V} (F : faithful S val).

  Lemma f_swap_l w a b : val (s_swap S w a b) a = val w b.
  Proof. by destruct (f_swap S val F w a b). Qed.
  Lemma f_swap_r w a b : val (s_swap S w a b) b = val w a.
  Proof. by destruct (f_swap S val F w a b). Qed.

  Lemma eq_false w a b : val w a <> val w b -> s_eq S w a b = false.
  Proof. intros H. apply not_true_is_false. by rewrite (f_eq S val F). Qed.
  Lemma ne_false w a b : val w a = val w b -> s_ne S w a b = false.
  Proof. intros H. apply not_true_is_false. rewrite (f_ne S val F). by intros []. Qed.

  Lemma equality_complete w : val w 0 <> val w 1 -> equality_holds (S := S) w 0 1.
  Proof.
    intros H. repeat split; try (by apply (f_eq S val F)); try (by apply ne_false). by apply (f_ne S val F).
  Qed.

  Lemma ordering_complete cmp w x y : ordered S val cmp -> val w x <> val w y -> ordering_holds (S := S) (cmp (val w x) (val w y)) w x y.
  Proof.
    intros O Hd. pose proof (o_total S val cmp O) as T.
    assert (forall v, cmp v v = Eq) as Hr by (intros; by apply cmp_refl).
    assert (cmp (val w x) (val w y) <> Eq) as Hne. { intros E. by apply (cmp_eq T) in E. }
    pose proof (cmp_opp T (val w x) (val w y)) as Ho.
    assert (forall u v, s_lt S w u v = false <-> cmp (val w u) (val w v) <> Lt) as Hlt.
    { intros u v. rewrite <- (o_lt S val cmp O). by destruct (s_lt S w u v). }
    assert (forall u v, s_gt S w u v = false <-> cmp (val w u) (val w v) <> Gt) as Hgt.
    { intros u v. rewrite <- (o_gt S val cmp O). by destruct (s_gt S w u v). }
    unfold ordering_holds, order_holds, three_consistent. split; [done|]. split.
    { rewrite !Hlt, !Hgt, !(o_le S val cmp O), !(o_ge S val cmp O), !Hr. repeat split; try done;
        by rewrite (o_three S val cmp O three) by done. }
    destruct (s_lt S w x y) eqn:E.
    - apply (o_lt S val cmp O) in E. rewrite E in *. split; [|done].
      rewrite (o_gt S val cmp O), (o_le S val cmp O), (o_ge S val cmp O), E, Ho. cbn. repeat split; try done.
      intros three Ht. by rewrite (o_three S val cmp O three _ _ _ Ht).
    - apply Hlt in E. assert (cmp (val w x) (val w y) = Gt) as Eg by (destruct (cmp (val w x) (val w y)); done).
      rewrite Eg in *. cbn in Ho. rewrite !(o_gt S val cmp O), (o_le S val cmp O), (o_ge S val cmp O), Eg, Ho. repeat split; try done.
      intros three Ht. by rewrite (o_three S val cmp O three _ _ _ Ht).
  Qed.
End complete.

Ltac follow F :=
  repeat first
    [ rewrite (f_copy _ _ F) by discriminate | rewrite (f_copy_others _ _ F) by discriminate
    | rewrite (f_copy_assign _ _ F) | rewrite (f_copy_assign_others _ _ F) by discriminate
    | rewrite (f_move _ _ F) by discriminate | rewrite (f_move_others _ _ F) by discriminate
    | rewrite (f_move_assign _ _ F) by discriminate | rewrite (f_move_assign_others _ _ F) by discriminate
    | rewrite (f_swap_l F) | rewrite (f_swap_r F) | rewrite (f_swap_others _ _ F) by discriminate
    | rewrite (f_destroy _ _ F) by discriminate ].

Section regular.
  Context {S : subject} {V : Type} {val : world S -> nat -> V} (F : faithful S val).

  Lemma regular_complete cmp q w : well_posed S val cmp q w -> failures (regular_semantics S q) w = [].
  Proof.
    intros P. apply regular_semantics_passes. split.
    { unfold clones_found. destruct (q_clones S q) as [[x y]|] eqn:E; [|done]. by apply (p_clones S val cmp q w P). }
    unfold regular_facts. cbv zeta. split; [apply (equality_complete F), (p_different S val cmp q w P)|]. split.
    { destruct (q_order S q) as [o|] eqn:E; [|done]. destruct (p_order S val cmp q w P o E) as [O <-].
      apply (ordering_complete (val := val)); [done|apply (p_different S val cmp q w P)]. }
    split; [apply (f_same S val F); follow F; done|].
    split; [apply (f_same S val F); follow F; done|].
    split; [apply (f_same S val F); follow F; done|].
    split; [apply (f_best S val F); follow F; done|].
    split. { unfold moved_from. destruct (q_moved_construction S q) as [p|] eqn:E; [|done]. apply (p_moved_construction S val cmp q w P p _ _ _ E); [discriminate|]. follow F. done. }
    split; [apply (f_best S val F); follow F; done|].
    split. { unfold moved_from. destruct (q_moved_assignment S q) as [p|] eqn:E; [|done]. apply (p_moved_assignment S val cmp q w P p _ _ _ E); [discriminate|]. follow F. done. }
    split; [apply (f_best S val F); follow F; done|].
    split; [apply (f_best S val F); follow F; done|].
    split; [apply (f_best S val F); follow F; done|].
    destruct (q_mutator S q) as [m|] eqn:E.
    - pose proof (fun w' o => p_mutator S val cmp q w P m w' o E) as M1.
      pose proof (fun w' o o' => p_mutator_others S val cmp q w P m w' o o' E) as M2.
      eexists. split.
      { split; [reflexivity|]. rewrite !(f_ne S val F), (f_same S val F). follow F. rewrite ?(fun w' => M2 w' 9 1) by discriminate. follow F.
        rewrite ?(fun w' => M2 w' 9 1) by discriminate. follow F. split; [apply M1; follow F; done|]. split; [done|]. apply M1.
        follow F. rewrite ?(fun w' => M2 w' 9 1) by discriminate. follow F. done. }
      intros write read Hs. apply (f_best S val F). rewrite (f_serialize S val F write read) by done. follow F.
      rewrite (f_serialize_others S val F write read) by done. follow F. done.
    - eexists. split; [reflexivity|].
      intros write read Hs. apply (f_best S val F). rewrite (f_serialize S val F write read) by done. follow F.
      rewrite (f_serialize_others S val F write read) by done. follow F. done.
  Qed.

  Lemma move_only_complete cmp other q c w :
    well_posed_move_only S val cmp q c w -> failures (move_only_semantics S other q c) w = [].
  Proof.
    intros P. apply move_only_semantics_passes. pose proof (m_different S val cmp q c w P) as Hd.
    pose proof (m_clone_x S val cmp q c w P) as Hx. pose proof (m_clone_y S val cmp q c w P) as Hy.
    unfold move_only_facts. cbv zeta. split; [by apply (equality_complete F)|]. split; [by split; [apply Hx|apply Hy]|]. split.
    { destruct (q_order S q) as [o|] eqn:E; [|done]. destruct (m_order S val cmp q c w P o E) as [O <-].
      by apply (ordering_complete (val := val)). }
    split; [apply Hx; follow F; done|].
    split. { unfold moved_from. destruct (q_moved_construction S q) as [p|] eqn:E; [|done]. by apply (m_moved_construction S val cmp q c w P p _ _ _ E). }
    split; [apply Hx; follow F; done|].
    split; [apply Hy; follow F; done|].
    split; [apply Hx; follow F; done|].
    split; [apply Hy; follow F; done|].
    split. { unfold moved_from. destruct (q_moved_assignment S q) as [p|] eqn:E; [|done]. apply (m_moved_assignment S val cmp q c w P p _ _ _ E); [discriminate|]. follow F. done. }
    intros write read Hs. apply Hy. rewrite (f_serialize S val F write read) by done. follow F. by apply (m_clone S val cmp q c w P write read).
  Qed.
End regular.
