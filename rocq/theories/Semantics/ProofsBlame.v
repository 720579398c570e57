(** Failures are about the operation which they name. *)
From stdpp Require Import list.
From Verif.Base Require Import Compare.
From Verif.Semantics Require Import Model Spec Proofs ProofsRegular ProofsExact.

Section failures.
  Context {S : subject}.

  Lemma failures_assoc {A B C} (m : code S A) (f : A -> code S B) (g : B -> code S C) w :
    failures (bind S (bind S m f) g) w = failures (bind S m (fun a => bind S (f a) g)) w.
  Proof.
    unfold failures, bind. destruct (m w) as [[a w1] l1]. destruct (f a w1) as [[b w2] l2]. destruct (g b w2) as [[c w3] l3]. cbn.
    by rewrite app_assoc.
  Qed.
  Lemma failures_act {A} f (k : unit -> code S A) w : failures (bind S (act S f) k) w = failures (k tt) (f w).
  Proof. unfold failures, bind, act. by destruct (k tt (f w)) as [[c w3] l3]. Qed.
  Lemma failures_ret {A B} (a : A) (k : A -> code S B) w : failures (bind S (ret S a) k) w = failures (k a) w.
  Proof. unfold failures, bind, ret. by destruct (k a w) as [[c w3] l3]. Qed.
  Lemma failures_check {A} t b (k : bool -> code S A) w :
    failures (bind S (check S t b) k) w = (if b w then [] else [t]) ++ failures (k (b w)) w.
  Proof. unfold failures, bind, check. by destruct (k (b w) w) as [[c w3] l3]. Qed.
  Lemma failures_check1 t b w : failures (check S t b) w = if b w then [] else [t].
  Proof. done. Qed.
  Lemma failures_act1 f w : failures (act S f) w = [].
  Proof. done. Qed.
  Lemma failures_ret1 {A} (a : A) w : failures (ret S a) w = [].
  Proof. done. Qed.
  Lemma failures_guarded {A} (m : code S A) w : failures (guarded S m) w = failures m w.
  Proof. unfold failures, guarded. by destruct (m w) as [[a w1] l]. Qed.
  Lemma failures_passed {A B} (m : code S A) (k : A -> code S B) w a w' :
    passes m w a w' -> failures (bind S m k) w = failures (k a) w'.
  Proof. unfold passes, failures, bind. intros ->. by destruct (k a w') as [[c w3] l3]. Qed.
End failures.

Definition final {S A} (m : code S A) (w : world S) : world S := snd (fst (m w)).

Section triple.
  Context {S : subject} (B : tag -> Prop).

  (** From [P], all failures are such that [B], and the outcome is such that [Q]. *)
  Definition triple {A} (P : world S -> Prop) (m : code S A) (Q : A -> world S -> Prop) : Prop :=
    forall w, P w -> (forall t, t ∈ failures m w -> B t) /\ Q (returned m w) (final m w).

  Lemma triple_bind {A C} P (m : code S A) (f : A -> code S C) Q R :
    triple P m Q -> (forall a, triple (Q a) (f a) R) -> triple P (bind S m f) R.
  Proof.
    intros H1 H2 w Hw. destruct (H1 w Hw) as [B1 Q1]. destruct (H2 _ _ Q1) as [B2 Q2]. revert B1 Q1 B2 Q2.
    unfold failures, returned, final, bind. destruct (m w) as [[a w1] l]. cbn. destruct (f a w1) as [[c w2] l']. cbn.
    intros B1 _ B2 Q2. split; [|done]. intros t [?|?]%elem_of_app; [by apply B1|by apply B2].
  Qed.
  Lemma triple_act (P : world S -> Prop) f (Q : unit -> world S -> Prop) : (forall w, P w -> Q tt (f w)) -> triple P (act S f) Q.
  Proof. intros H w Hw. split; [by intros t ?%elem_of_nil|by apply H]. Qed.
  Lemma triple_ret {A} (P : world S -> Prop) (a : A) (Q : A -> world S -> Prop) : (forall w, P w -> Q a w) -> triple P (ret S a) Q.
  Proof. intros H w Hw. split; [by intros t ?%elem_of_nil|by apply H]. Qed.
  Lemma triple_check (P : world S -> Prop) t b (Q : bool -> world S -> Prop) :
    (forall w, P w -> b w = true -> Q true w) -> (forall w, P w -> b w = false -> B t /\ Q false w) -> triple P (check S t b) Q.
  Proof.
    intros H1 H2 w Hw. unfold failures, returned, final, check. cbn. destruct (b w) eqn:E.
    - split; [by intros t' ?%elem_of_nil|by apply H1].
    - destruct (H2 w Hw E). split; [by intros t' ->%elem_of_list_singleton|done].
  Qed.
  Lemma triple_pre {A} (P P' : world S -> Prop) (m : code S A) Q : (forall w, P w -> P' w) -> triple P' m Q -> triple P m Q.
  Proof. intros H1 H2 w Hw. by apply H2, H1. Qed.
  Lemma triple_false {A} (P : world S -> Prop) (m : code S A) Q : (forall w, P w -> False) -> triple P m Q.
  Proof. intros H w Hw. by destruct (H w Hw). Qed.
End triple.

Section blame.
  Context {V : Type} `{!EqDecision V} {cmp : V -> V -> comparison} (O : total_cmp cmp) (T : operations V).
  Context (lc : option (V -> V)) (la : option (V -> V -> V)) (m : option (V -> V)) (x y : V) (Hxy : x <> y) (Hy : t_copy T y = y).

  Local Notation K := (machine cmp T).
  Local Notation tr := (triple (S := K) (blame T lc la m x y)).
  Definition base (w : nat -> V) : Prop := w 0 = x /\ w 1 = y.

  Lemma blame_copy_assign :
    tr base (copy_assign_check K 2 1) (fun b w => base w /\ (b = true -> w 2 = y)).
  Proof.
    unfold copy_assign_check. eapply triple_bind; [apply triple_act with (Q := fun _ w => base w /\ exists u, w 2 = t_assign T u y)|].
    { intros w [H0 H1]. split; [done|]. exists (w 2). cbn. by rewrite H1. }
    intros ?. eapply triple_bind; [apply triple_check with (Q := fun b w => base w /\ (b = true -> w 2 = y))|].
    - intros w [[H0 H1] _] E. apply bool_decide_eq_true in E. split; [done|]. by rewrite E.
    - intros w [[H0 H1] [u Hu]] E. apply bool_decide_eq_false in E. split; [|done]. exists u. by rewrite <- Hu, <- H1 at 1.
    - intros []; cbn iota; [|by apply triple_ret]. eapply triple_bind; [apply triple_act with (Q := fun _ w => base w /\ w 2 = t_self_assign T y)|].
      { intros w [[H0 H1] H2]. split; [done|]. cbn. by rewrite H2. }
      intros ?. apply triple_check.
      + intros w [[H0 H1] H2] E. apply bool_decide_eq_true in E. split; [done|]. by rewrite E.
      + intros w [[H0 H1] H2] E. apply bool_decide_eq_false in E. split; [|done]. cbn. by rewrite <- H2, <- H1 at 1.
  Qed.

  Lemma blame_move_construction :
    tr (fun w => base w /\ w 2 = y)
      (move_construction K 2 3 4 (fun a o => s_best K a o 1) ((fun l (w : world K) o => bool_decide (w o = l y)) <$> lc)) (fun _ => base).
  Proof.
    unfold move_construction.
    eapply triple_bind; [apply triple_act with (Q := fun _ w => base w /\ w 3 = fst (t_move T y) /\ w 2 = snd (t_move T y))|].
    { intros w [[H0 H1] H2]. split; [done|]. cbn. by rewrite H2. }
    intros ?. eapply triple_bind; [apply triple_check with (Q := fun b w => base w /\ w 2 = snd (t_move T y))|].
    - by intros w (?&?&?) _.
    - intros w ([H0 H1]&H2&H3) E. apply bool_decide_eq_false in E. split; [|done]. cbn. by rewrite <- H2, <- H1 at 1.
    - intros []; cbn iota; [|eapply triple_bind; [apply triple_act with (Q := fun _ w => base w); by intros w [? _]|intros ?; by apply triple_ret]].
      eapply triple_bind with (Q := fun _ w => base w).
      + destruct lc as [l|] eqn:El; cbn; [|apply triple_ret; by intros w [? _]]. apply triple_check; [by intros w [? _] _|].
        intros w [? H3] E. apply bool_decide_eq_false in E. split; [|done]. exists l. split; [done|]. by rewrite <- H3.
      + intros ?. eapply triple_bind; [apply triple_act with (Q := fun _ w => base w); by intros w [? ?]|]. intros ?.
        eapply triple_bind; [apply triple_act with (Q := fun _ w => base w); by intros w [? ?]|]. intros ?. by apply triple_ret.
  Qed.

  Lemma blame_move_assign :
    tr (fun w => base w /\ w 5 = x /\ w 6 = y)
      (move_assign K 5 6 (fun a o => s_best K a o 1) ((fun l (w : world K) o => bool_decide (w o = l x y)) <$> la)) (fun _ => base).
  Proof.
    unfold move_assign.
    eapply triple_bind; [apply triple_act with (Q := fun _ w => base w /\ w 5 = fst (t_move_assign T x y) /\ w 6 = snd (t_move_assign T x y))|].
    { intros w ([H0 H1]&H2&H3). split; [done|]. cbn. by rewrite H2, H3. }
    intros ?. eapply triple_bind; [apply triple_check with (Q := fun b w => base w /\ w 6 = snd (t_move_assign T x y))|].
    - by intros w (?&?&?) _.
    - intros w ([H0 H1]&H2&H3) E. apply bool_decide_eq_false in E. split; [|done]. cbn. by rewrite <- H2, <- H1 at 1.
    - intros []; cbn iota; [|apply triple_ret; by intros w [? _]].
      eapply triple_bind with (Q := fun _ w => base w).
      + destruct la as [l|] eqn:El; cbn; [|apply triple_ret; by intros w [? _]]. apply triple_check; [by intros w [? _] _|].
        intros w [? H3] E. apply bool_decide_eq_false in E. split; [|done]. exists l. split; [done|]. by rewrite <- H3.
      + intros ?. by apply triple_ret.
  Qed.

  Lemma blame_swap :
    tr (fun w => base w /\ w 7 = x /\ w 8 = y) (swap_check K 7 8 (fun a o => s_best K a o 0) (fun a o => s_best K a o 1)) (fun _ => base).
  Proof.
    unfold swap_check.
    eapply triple_bind; [apply triple_act with (Q := fun _ w => base w /\ w 7 = fst (t_swap T x y) /\ w 8 = snd (t_swap T x y))|].
    { intros w ([H0 H1]&H2&H3). split; [done|]. cbn. by rewrite H2, H3. }
    intros ?. eapply triple_bind; [apply triple_check with (Q := fun b w => base w /\ w 7 = fst (t_swap T x y) /\ (b = true -> w 8 = x))|].
    - intros w ([H0 H1]&H2&H3) E. apply bool_decide_eq_true in E. split_and!; [done..|]. intros ?. by rewrite <- H0.
    - intros w ([H0 H1]&H2&H3) E. apply bool_decide_eq_false in E. split; [|done]. cbn. by rewrite <- H3, <- H0 at 1.
    - intros sy. eapply triple_bind; [apply triple_check with (Q := fun b w => base w /\ (sy = true -> w 8 = x))|].
      + by intros w (?&?&?) _.
      + intros w ([H0 H1]&H2&H3) E. apply bool_decide_eq_false in E. split; [|done]. cbn. by rewrite <- H2, <- H1 at 1.
      + intros sx. destruct (sx && sy) eqn:Es; [|apply triple_ret; by intros w [? _]]. apply andb_true_iff in Es as [-> ->].
        eapply triple_bind; [apply triple_act with (Q := fun _ w => base w /\ w 8 = t_self_swap T x)|].
        { intros w ([H0 H1]&H2). split; [done|]. cbn. by rewrite H2. }
        intros ?. apply triple_check; [by intros w [? _] _|]. intros w ([H0 H1]&H2) E. apply bool_decide_eq_false in E. split; [|done].
        cbn. by rewrite <- H2, <- H0 at 1.
  Qed.

  Lemma blame_mutation f :
    m = Some f -> tr base (mutation_check K 9 1 (fun (w : world K) o => (set w o (f (w o)) : world K))) (fun _ => base).
  Proof.
    intros Hm. unfold mutation_check.
    eapply triple_bind; [apply triple_act with (Q := fun _ w => base w /\ w 9 = y)|].
    { intros w [H0 H1]. split; [done|]. cbn. by rewrite H1. }
    intros ?. eapply triple_bind; [apply triple_act with (Q := fun _ w => base w /\ w 9 = f y)|].
    { intros w ([H0 H1]&H2). split; [done|]. cbn. by rewrite H2. }
    intros ?. eapply triple_bind with (Q := fun _ w => base w); [|intros ?; apply triple_act; by intros w [? ?]].
    eapply triple_bind; [apply triple_check with (Q := fun b w => base w /\ w 9 = f y /\ (b = true -> f y <> y))|].
    - intros w ([H0 H1]&H2) E. apply negb_true_iff, bool_decide_eq_false in E. rewrite H2, H1 in E. done.
    - intros w ([H0 H1]&H2) E. apply negb_false_iff, bool_decide_eq_true in E. rewrite H2, H1 in E. split; [by exists f|done].
    - intros []; cbn iota; [|apply triple_ret; by intros w [? _]].
      eapply triple_bind; [apply triple_act with (Q := fun _ w => base w /\ w 9 = t_assign T (f y) y /\ f y <> y)|].
      { intros w ([H0 H1]&H2&H3). split_and!; [done| |by apply H3]. cbn. by rewrite H1, H2. }
      intros ?. eapply triple_bind; [apply triple_check with (Q := fun b w => base w /\ (b = true -> w 9 = y) /\ f y <> y)|].
      + intros w ([H0 H1]&H2&H3) E. apply bool_decide_eq_true in E. split_and!; try done. intros ?. by rewrite E.
      + intros w ([H0 H1]&H2&H3) E. apply bool_decide_eq_false in E. rewrite H2, H1 in E. split; [by exists f|done].
      + intros []; cbn iota; [|apply triple_ret; by intros w [? _]].
        eapply triple_bind; [apply triple_act with (Q := fun _ w => base w /\ w 9 = f y /\ f y <> y)|].
        { intros w ([H0 H1]&H2&H3). split_and!; [done| |done]. cbn. by rewrite H2. }
        intros ?. eapply triple_bind; [apply triple_check with (Q := fun _ w => base w); [by intros w [? _] _|]|intros ?; by apply triple_ret].
        intros w ([H0 H1]&H2&H3) E. apply negb_false_iff, bool_decide_eq_true in E. rewrite H2, H1 in E. done.
  Qed.

  Lemma blame_serialization :
    tr (fun w => base w /\ w 10 = x) (serialization_check K 10 1 (fun a o => s_best K a o 1)) (fun _ => base).
  Proof.
    unfold serialization_check. cbn [s_serialize machine]. destruct (t_serialize T) as [[write read]|] eqn:Es; [|apply triple_ret; by intros w [? _]].
    eapply triple_bind; [apply triple_act with (Q := fun _ w => base w /\ w 10 = read (write y) x)|].
    { intros w ([H0 H1]&H2). split; [done|]. cbn. by rewrite H1, H2. }
    intros ?. eapply triple_bind; [apply triple_check with (Q := fun _ w => base w); [by intros w [? _] _|]|intros ?; by apply triple_ret].
    intros w ([H0 H1]&H2) E. apply bool_decide_eq_false in E. split; [|done]. exists write, read. split; [done|]. by rewrite <- H2, <- H1 at 1.
  Qed.

  Lemma regular_blames sorted t :
    t ∈ failures (regular_semantics K (ask cmp T sorted lc la m x y)) (pair_world x y) -> blame T lc la m x y t.
  Proof.
    intros H. unfold regular_semantics in H. cbn [best_equivalence q_clones ask] in H.
    rewrite failures_ret, failures_guarded in H. unfold regular_body in H.
    erewrite failures_passed in H.
    2: { apply prerequisites_passes. split; [reflexivity|]. split; [reflexivity|]. split; [by apply machine_equality|]. split; [done|].
         destruct sorted; [|done]. exact (machine_ordering O T (pair_world x y) 0 1 Hxy). }
    cbn [q_moved_construction q_moved_assignment q_mutator ask] in H. revert t H.
    match goal with |- forall t, t ∈ failures ?c ?w -> _ =>
      assert (tr base c (fun _ _ => True)) as Htr; [|destruct (Htr w) as [Ht _]; [done|exact Ht]] end.
    cbv iota.
    eapply triple_bind; [apply triple_act with (Q := fun _ w => base w /\ w 2 = t_copy T x)|].
    { intros w [H0 H1]. split; [done|]. cbn. by rewrite H0. }
    intros ?. eapply triple_bind; [apply triple_check with (Q := fun b w => base w /\ (b = true -> t_copy T x = x))|].
    { intros w ([H0 H1]&H2) E. apply bool_decide_eq_true in E. split; [done|]. intros ?. by rewrite <- H2, E. }
    { intros w ([H0 H1]&H2) E. apply bool_decide_eq_false in E. split; [|done]. cbn. by rewrite <- H2, <- H0 at 1. }
    intros copied. assert (copied = false \/ copied = true) as [-> | ->] by (destruct copied; tauto).
    { eapply triple_bind; [eapply triple_pre; [|apply blame_copy_assign]; by intros w [? _]|]. intros assigned.
      eapply triple_bind with (Q := fun _ w => base w).
      { destruct assigned; [|apply triple_ret; by intros w [? _]].
        eapply triple_bind; [eapply triple_pre; [|apply blame_move_construction]; intros w [? H2]; split; [done|by apply H2]|].
        intros []; [by apply triple_act|by apply triple_ret]. }
      intros ?. eapply triple_bind; [by apply triple_act with (Q := fun _ w => base w)|intros ?; by apply triple_ret]. }
    destruct (decide (t_copy T x = x)) as [Hx|Hx]; [|apply triple_false; intros w [_ H]; by apply Hx, H].
    eapply triple_bind; [eapply triple_pre; [|apply blame_copy_assign]; by intros w [? _]|]. intros assigned.
    eapply triple_bind with (Q := fun _ w => base w).
    { destruct assigned; [|apply triple_ret; by intros w [? _]].
      eapply triple_bind; [eapply triple_pre; [|apply blame_move_construction]; intros w [? H2]; split; [done|by apply H2]|].
      intros []; [by apply triple_act|by apply triple_ret]. }
    intros ?.
    eapply triple_bind; [apply triple_act with (Q := fun _ w => base w /\ w 5 = x)|].
    { intros w [H0 H1]. split; [done|]. cbn. by rewrite H0. }
    intros ?. eapply triple_bind; [apply triple_act with (Q := fun _ w => base w /\ w 5 = x /\ w 6 = y)|].
    { intros w ([H0 H1]&H2). split_and!; [done..|]. cbn. by rewrite H1. }
    intros ?. eapply triple_bind; [apply blame_move_assign|].
    intros ?. eapply triple_bind; [by apply triple_act with (Q := fun _ w => base w)|].
    intros ?. eapply triple_bind; [apply triple_act with (Q := fun _ w => base w /\ w 7 = x)|].
    { intros w [H0 H1]. split; [done|]. cbn. by rewrite H0. }
    intros ?. eapply triple_bind; [apply triple_act with (Q := fun _ w => base w /\ w 7 = x /\ w 8 = y)|].
    { intros w ([H0 H1]&H2). split_and!; [done..|]. cbn. by rewrite H1. }
    intros ?. eapply triple_bind; [apply blame_swap|].
    intros ?. eapply triple_bind; [by apply triple_act with (Q := fun _ w => base w)|].
    intros ?. eapply triple_bind with (Q := fun _ w => base w).
    { destruct m as [f|] eqn:Em; cbn; [|by apply triple_ret]. destruct assigned; [|by apply triple_ret]. rewrite <- Em. by apply blame_mutation. }
    intros ?. eapply triple_bind with (Q := fun _ w => base w).
    { destruct (s_serialize K) as [p|]; [|by apply triple_ret].
      eapply triple_bind; [apply triple_act with (Q := fun _ w => base w /\ w 10 = x)|].
      { intros w [H0 H1]. split; [done|]. cbn. by rewrite H0. }
      intros ?. eapply triple_bind; [apply blame_serialization|]. intros ?. by apply triple_act. }
    intros ?. eapply triple_bind; [by apply triple_act with (Q := fun _ w => base w)|]. intros ?. by apply triple_ret.
  Qed.
End blame.
