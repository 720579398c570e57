(** Proofs about copies of graphs with shared weights. *)
From Coq Require Import Lia.
From stdpp Require Import list sorting.
From Verif.Base Require Import Outcome ListLemmas.
From Verif.Graph Require Import Model ModelShared ModelCopy Spec SpecCopy ProofsBase.
Local Open Scope res_scope.

Definition pos := (nat * nat)%type.
Definition at_ (es : graph nat) (p : pos) : option (edge nat) := row es p.1 !! p.2.

Section generic.
  Context {V : Type}.
  Variables (fl : flavour) (G : graph nat) (h0 : list V).

  (** Where the weight of an edge is first met. *)
  Variable canon : pos -> pos.

  (** The edges of the nodes before [i], and [k] edges of node [i], have been copied. *)
  Record copied (es : graph nat) (h : list V) (i k : nat) : Prop := {
    co_len : length es = S i;
    co_rows : forall a, a < i -> length (row es a) = length (row G a);
    co_row : length (row es i) = k;
    co_heap : exists more, h = h0 ++ more;
    co_edge : forall p e', at_ es p = Some e' -> exists e, at_ G p = Some e /\ tgt e' = tgt e /\ (fl = Embedded -> comp e' = comp e);
    co_canon : forall p e', at_ es p = Some e' -> exists e1 e1', at_ G (canon p) = Some e1 /\ at_ es (canon p) = Some e1' /\ wt e1' = wt e'
                 /\ length h0 <= wt e' < length h /\ h !! wt e' = h0 !! wt e1;
    co_inj : forall p q e1 e2, at_ es p = Some e1 -> at_ es q = Some e2 -> (wt e1 = wt e2 <-> canon p = canon q)
  }.

  Lemma at_push (es : graph nat) i e p : i < length es ->
    at_ (<[i := row es i ++ [e]]> es) p = if decide (p = (i, length (row es i))) then Some e else at_ es p.
  Proof.
    intros Hi. unfold at_. destruct p as [a b]. cbn [fst snd]. destruct (decide (a = i)) as [->|Hn].
    - rewrite row_insert_eq by done.
      destruct (decide (b = length (row es i))) as [->|Hn]; [rewrite decide_True by done; by rewrite lookup_app_r, Nat.sub_diag by lia|].
      rewrite decide_False; [|by intros [= ->]].
      destruct (decide (b < length (row es i))) as [Hb|Hb]; [by rewrite lookup_app_l|].
      rewrite (lookup_ge_None_2 (row es i)) by lia. apply lookup_ge_None_2. rewrite app_length. cbn. lia.
    - rewrite row_insert_ne by done. rewrite decide_False; [done|]. intros [= -> _]. done.
  Qed.

  Section step.
    Variables (es : graph nat) (h : list V) (i k : nat) (e : edge nat) (c : nat).
    Hypothesis (H : copied es h i k) (He : at_ G (i, k) = Some e) (Hc : fl = Embedded -> c = comp e).

    Lemma step_lt : i < length es.
    Proof using All. rewrite (co_len _ _ _ _ H). lia. Qed.
    Lemma step_at w p : at_ (<[i := row es i ++ [Edge (tgt e) c w]]> es) p = if decide (p = (i, k)) then Some (Edge (tgt e) c w) else at_ es p.
    Proof using All. rewrite at_push by apply step_lt. by rewrite (co_row _ _ _ _ H). Qed.
    Lemma step_fresh : at_ es (i, k) = None.
    Proof using All. apply lookup_ge_None_2. cbn. by rewrite (co_row _ _ _ _ H). Qed.
    Lemma step_len w : length (<[i := row es i ++ [Edge (tgt e) c w]]> es) = S i.
    Proof using All. rewrite insert_length. apply (co_len _ _ _ _ H). Qed.
    Lemma step_rows w a : a < i -> length (row (<[i := row es i ++ [Edge (tgt e) c w]]> es) a) = length (row G a).
    Proof using All. intros Ha. rewrite row_insert_ne by (apply step_lt || lia). by apply (co_rows _ _ _ _ H). Qed.
    Lemma step_row w : length (row (<[i := row es i ++ [Edge (tgt e) c w]]> es) i) = S k.
    Proof using All. rewrite row_insert_eq by apply step_lt. rewrite app_length, (co_row _ _ _ _ H). cbn. lia. Qed.
    Lemma step_edge w p e' : at_ (<[i := row es i ++ [Edge (tgt e) c w]]> es) p = Some e' ->
      exists e, at_ G p = Some e /\ tgt e' = tgt e /\ (fl = Embedded -> comp e' = comp e).
    Proof using All. rewrite step_at. case_decide as Hp; [|apply (co_edge _ _ _ _ H)]. intros [= <-]. subst p. by exists e. Qed.

    Lemma step_new v : canon (i, k) = (i, k) -> h0 !! wt e = Some v ->
      copied (<[i := row es i ++ [Edge (tgt e) c (length h)]]> es) (h ++ [v]) i (S k).
    Proof using All.
      intros Hk Hv. destruct (co_heap _ _ _ _ H) as [more Hm]. assert (Hl : length h0 <= length h) by (rewrite Hm, app_length; lia). split.
      - apply step_len.
      - apply step_rows.
      - apply step_row.
      - exists (more ++ [v]). by rewrite Hm, <- app_assoc.
      - apply step_edge.
      - intros p e'. rewrite step_at. case_decide as Hp.
        + intros [= <-]. subst p. exists e, (Edge (tgt e) c (length h)). rewrite Hk, step_at, decide_True by done. cbn [wt].
          rewrite app_length. cbn [length]. rewrite lookup_app_r, Nat.sub_diag by lia. repeat split; [done|lia|lia|done].
        + intros Hp'. destruct (co_canon _ _ _ _ H p e' Hp') as (e1 & e1' & H1 & H2 & H3 & H4 & H5). exists e1, e1'.
          rewrite step_at, decide_False. 2: { intros Heq. rewrite Heq, step_fresh in H2. done. }
          rewrite app_length. cbn [length]. rewrite lookup_app_l by lia. repeat split; try done; lia.
      - intros p q e1 e2. rewrite !step_at. case_decide as Hp; case_decide as Hq.
        + intros [= <-] [= <-]. by subst.
        + intros [= <-] He2. subst p. cbn [wt]. destruct (co_canon _ _ _ _ H q e2 He2) as (f & f' & H1 & H2 & H3 & H4 & H5). rewrite Hk. split; [lia|].
          intros Heq. rewrite <- Heq, step_fresh in H2. done.
        + intros He1 [= <-]. subst q. cbn [wt]. destruct (co_canon _ _ _ _ H p e1 He1) as (f & f' & H1 & H2 & H3 & H4 & H5). rewrite Hk. split; [lia|].
          intros Heq. rewrite Heq, step_fresh in H2. done.
        + intros He1 He2. by apply (co_inj _ _ _ _ H).
    Qed.

    Lemma step_old q e' : at_ es q = Some e' -> canon q = canon (i, k) -> canon (i, k) <> (i, k) ->
      copied (<[i := row es i ++ [Edge (tgt e) c (wt e')]]> es) h i (S k).
    Proof using All.
      intros Hq Hqk Hk. destruct (co_canon _ _ _ _ H q e' Hq) as (f & f' & G1 & G2 & G3 & G4 & G5). split.
      - apply step_len.
      - apply step_rows.
      - apply step_row.
      - apply (co_heap _ _ _ _ H).
      - apply step_edge.
      - intros p x. rewrite step_at. case_decide as Hp.
        + intros [= <-]. subst p. exists f, f'. rewrite step_at, decide_False by done. rewrite <- Hqk. cbn [wt]. done.
        + intros Hp'. destruct (co_canon _ _ _ _ H p x Hp') as (e1 & e1' & H1 & H2 & H3 & H4 & H5). exists e1, e1'.
          rewrite step_at, decide_False. 2: { intros Heq. rewrite Heq, step_fresh in H2. done. } done.
      - intros p r e1 e2. rewrite !step_at. case_decide as Hp; case_decide as Hr.
        + intros [= <-] [= <-]. by subst.
        + intros [= <-] He2. subst p. cbn [wt]. rewrite <- Hqk. by apply (co_inj _ _ _ _ H).
        + intros He1 [= <-]. subst r. cbn [wt]. rewrite <- Hqk. by apply (co_inj _ _ _ _ H).
        + intros He1 He2. by apply (co_inj _ _ _ _ H).
    Qed.
  End step.

  (** A new node. *)
  Lemma copied_slot es h i k : copied es h i k -> k = length (row G i) -> copied (es ++ [[]]) h (S i) 0.
  Proof.
    intros H ->. assert (Hr : forall a, row (es ++ [[]]) a = row es a).
    { intros a. destruct (decide (a < length es)) as [Ha|Ha]; [by apply row_app_l|]. rewrite row_app_r, (row_ge es) by lia. by destruct (a - length es) as [|[|]]. }
    assert (Ha : forall p, at_ (es ++ [[]]) p = at_ es p) by (intros p; unfold at_; by rewrite Hr). split.
    - rewrite app_length, (co_len _ _ _ _ H). cbn. lia.
    - intros a Hlt. rewrite Hr. destruct (decide (a = i)) as [->|]; [apply (co_row _ _ _ _ H)|apply (co_rows _ _ _ _ H); lia].
    - rewrite Hr, row_ge; [done|]. rewrite (co_len _ _ _ _ H). done.
    - apply (co_heap _ _ _ _ H).
    - intros p e'. rewrite Ha. apply (co_edge _ _ _ _ H).
    - intros p e'. rewrite !Ha. apply (co_canon _ _ _ _ H).
    - intros p q e1 e2. rewrite !Ha. apply (co_inj _ _ _ _ H).
  Qed.

  (** What this means. *)
  Lemma copied_result es h (c := SGraph es h) : copied (es ++ [[]]) h (length G) 0 ->
    same_shape fl (SGraph G h0) c /\ own_weights (SGraph G h0) c
    /\ (forall p e', at_ es p = Some e' -> exists e1, at_ G (canon p) = Some e1 /\ h !! wt e' = h0 !! wt e1)
    /\ (forall p q e1 e2, at_ es p = Some e1 -> at_ es q = Some e2 -> (wt e1 = wt e2 <-> canon p = canon q)).
  Proof.
    intros H. assert (Hr : forall a, row (es ++ [[]]) a = row es a).
    { intros a. destruct (decide (a < length es)) as [Ha|Ha]; [by apply row_app_l|]. rewrite row_app_r, (row_ge es) by lia. by destruct (a - length es) as [|[|]]. }
    assert (Ha : forall p, at_ (es ++ [[]]) p = at_ es p) by (intros p; unfold at_; by rewrite Hr).
    assert (Hl : length es = length G). { pose proof (co_len _ _ _ _ H) as Hl. rewrite app_length in Hl. cbn in Hl. lia. }
    unfold c. split; [|split; [|split]].
    - split; [done|]. cbn [sedges]. split.
      + intros a. destruct (decide (a < length G)) as [Hlt|Hge]; [rewrite <- Hr; by apply (co_rows _ _ _ _ H)|]. by rewrite !row_ge by lia.
      + intros i k e e' He He'. destruct (co_edge _ _ _ _ H (i, k) e') as (e0 & H0 & H1 & H2); [by rewrite Ha|]. unfold at_ in H0. cbn in H0.
        assert (e0 = e) as -> by congruence. done.
    - split; [apply (co_heap _ _ _ _ H)|]. cbn [sedges heap]. intros i k e He.
      destruct (co_canon _ _ _ _ H (i, k) e) as (e1 & e1' & _ & _ & _ & Hb & _); [by rewrite Ha|done].
    - intros p e' He'. destruct (co_canon _ _ _ _ H p e') as (e1 & e1' & H1 & _ & _ & _ & H2); [by rewrite Ha|]. by exists e1.
    - intros p q e1 e2 H1 H2. apply (co_inj _ _ _ _ H); by rewrite Ha.
  Qed.

  (** ** All of it *)
  Variables (f : nat -> nat -> edge nat -> copying V -> res (copying V)) (Q : copying V -> nat -> nat -> Prop).
  Hypothesis Hf : forall i k e st, at_ G (i, k) = Some e -> copied (made st) (cheap st) i k -> Q st i k ->
    exists st', f i k e st = Ok st' /\ copied (made st') (cheap st') i (S k) /\ Q st' i (S k).
  Hypothesis HQ : forall st i k, Q st i k -> k = length (row G i) -> Q (Copying (made st ++ [[]]) (cheap st) (places st)) (S i) 0.

  Lemma copy_row_copied i r k st :
    drop k (row G i) = r -> k + length r = length (row G i) -> copied (made st) (cheap st) i k -> Q st i k ->
    exists st', copy_row f i k r st = Ok st' /\ copied (made st') (cheap st') i (length (row G i)) /\ Q st' i (length (row G i)).
  Proof using Hf HQ.
    revert k st. induction r as [|e r IH]; intros k st Hd Hl Hst HQst; cbn [copy_row].
    - exists st. cbn in Hl. by replace (length (row G i)) with k by lia.
    - assert (He : at_ G (i, k) = Some e). { unfold at_. cbn. rewrite <- (Nat.add_0_r k), <- lookup_drop, Hd. done. }
      destruct (Hf i k e st He Hst HQst) as (st1 & -> & H1 & HQ1). cbn [rbind]. apply IH; [|cbn in Hl; lia|done|done].
      replace (S k) with (k + 1) by lia. by rewrite <- drop_drop, Hd.
  Qed.
  Lemma copy_rows_copied rows i st :
    drop i G = rows -> S i + length rows = S (length G) ->
    copied (made st ++ [[]]) (cheap st) i 0 -> Q (Copying (made st ++ [[]]) (cheap st) (places st)) i 0 ->
    exists st', copy_rows f i rows st = Ok st' /\ copied (made st' ++ [[]]) (cheap st') (length G) 0.
  Proof using Hf HQ.
    revert i st. induction rows as [|r rows IH]; intros i st Hd Hl Hst HQst; cbn [copy_rows].
    - exists st. cbn in Hl. by replace (length G) with i by lia.
    - assert (Hr : row G i = r). { apply row_lookup. rewrite <- (Nat.add_0_r i), <- lookup_drop, Hd. done. }
      destruct (copy_row_copied i r 0 (Copying (made st ++ [[]]) (cheap st) (places st))) as (st1 & -> & H1 & HQ1); [by rewrite drop_0|by rewrite Hr|done|done|].
      cbn [rbind]. apply IH.
      + replace (S i) with (i + 1) by lia. by rewrite <- drop_drop, Hd.
      + cbn in Hl. lia.
      + by apply (copied_slot _ _ i (length (row G i))).
      + by apply (HQ st1 i (length (row G i))).
  Qed.

  Lemma copied_nothing es h i k : length es = S i -> (forall p, at_ es p = None) -> (forall a, a < i -> length (row es a) = length (row G a)) ->
    k = length (row es i) -> h = h0 -> copied es h i k.
  Proof.
    intros Hl Hn Hr -> ->. split; [done|done|done|exists []; by rewrite app_nil_r| | |].
    - intros p e'. by rewrite Hn.
    - intros p e'. by rewrite Hn.
    - intros p q e1 e2. by rewrite Hn.
  Qed.
  Lemma copied_all : Q (Copying [[]] h0 []) 0 0 ->
    exists st, copy_rows f 0 G (Copying [] h0 []) = Ok st /\ copied (made st ++ [[]]) (cheap st) (length G) 0.
  Proof using Hf HQ.
    intros H0. apply copy_rows_copied; [by rewrite drop_0|done| |done].
    apply copied_nothing; [done| |lia|done|done]. intros [[|[|a]] b]; unfold at_; by destruct b.
  Qed.
End generic.

(** ** Embedded graphs *)
Definition mate_of (G : graph nat) (p : pos) : pos := match at_ G p with Some e => (tgt e, comp e) | None => p end.
Definition beforeb (p q : pos) : bool := (p.1 <? q.1) || ((p.1 =? q.1) && (p.2 <? q.2)).
Definition canon_halves (G : graph nat) (p : pos) : pos := if beforeb (mate_of G p) p then mate_of G p else p.

  Lemma mate_of_at G p e : at_ G p = Some e -> mate_of G p = (tgt e, comp e).
  Proof. intros H. unfold mate_of. by rewrite H. Qed.
  Lemma beforeb_total p q : p <> q -> beforeb p q = false -> beforeb q p = true.
  Proof.
    destruct p as [a b], q as [c d]. unfold beforeb. cbn [fst snd]. intros Hn H. assert (~ (a = c /\ b = d)) by (intros [-> ->]; done). lia.
  Qed.
  Lemma beforeb_asym p q : beforeb p q = true -> beforeb q p = false.
  Proof. destruct p as [a b], q as [c d]. unfold beforeb. cbn [fst snd]. lia. Qed.

Section embedded.
  Context {V : Type}.
  Variables (G : graph nat) (h0 : list V).
  Hypothesis (HG : halves_ok G) (Hw : forall p e, at_ G p = Some e -> wt e < length h0).

  Lemma mate_facts p e : at_ G p = Some e -> exists e', at_ G (mate_of G p) = Some e' /\ mate_of G (mate_of G p) = p /\ mate_of G p <> p.
  Proof using HG.
    intros He. destruct p as [i k]. destruct (HG i k e He) as (e' & H1 & H2 & H3 & H4). exists e'. rewrite (mate_of_at G (i, k) e He).
    assert (H5 : at_ G (tgt e, comp e) = Some e') by done. split; [done|]. rewrite (mate_of_at G _ _ H5). split; [congruence|done].
  Qed.
  Lemma canon_same p q e e' : at_ G p = Some e -> at_ G q = Some e' -> (canon_halves G p = canon_halves G q <-> p = q \/ mate_of G p = q).
  Proof using HG.
    intros Hp Hq. destruct (mate_facts p e Hp) as (f & F1 & F2 & F3). destruct (mate_facts q e' Hq) as (f' & F1' & F2' & F3'). unfold canon_halves.
    split.
    - destruct (beforeb (mate_of G p) p) eqn:E1, (beforeb (mate_of G q) q) eqn:E2; intros H.
      + left. by rewrite <- F2, H, F2'.
      + by right.
      + right. by rewrite H, F2'.
      + by left.
    - intros [->|H]; [done|]. subst q. rewrite F2. destruct (beforeb (mate_of G p) p) eqn:E1; [by rewrite (beforeb_asym _ _ E1)|].
      by rewrite (beforeb_total _ _ F3 E1).
  Qed.

  Lemma copy_embedded_step i k e (st : copying V) : at_ G (i, k) = Some e -> copied Embedded G h0 (canon_halves G) (made st) (cheap st) i k -> True ->
    exists st', copy_embedded i k e st = Ok st' /\ copied Embedded G h0 (canon_halves G) (made st') (cheap st') i (S k) /\ True.
  Proof using HG Hw.
    intros He H _. pose proof (step_lt _ _ _ _ _ _ _ _ e (comp e) H He (fun _ => eq_refl)) as Hlt. destruct (mate_facts (i, k) e He) as (e2 & M1 & M2 & M3).
    pose proof (mate_of_at G (i, k) e He) as Hm. rewrite Hm in *. unfold copy_embedded.
    change ((tgt e <? i) || ((tgt e =? i) && (comp e <? k))) with (beforeb (tgt e, comp e) (i, k)).
    assert (Hc : canon_halves G (i, k) = if beforeb (tgt e, comp e) (i, k) then (tgt e, comp e) else (i, k)) by (unfold canon_halves; by rewrite Hm).
    destruct (beforeb (tgt e, comp e) (i, k)) eqn:Eb.
    - assert (Hin : exists p, at_ (made st) (tgt e, comp e) = Some p).
      { apply lookup_lt_is_Some_2. cbn [fst snd]. pose proof (lookup_lt_Some _ _ _ M1) as Hl. cbn [fst snd] in Hl. unfold beforeb in Eb. cbn [fst snd] in Eb.
        destruct (decide (tgt e < i)); [by rewrite (co_rows _ _ _ _ _ _ _ _ H) by done|]. replace (tgt e) with i in * by lia.
        rewrite (co_row _ _ _ _ _ _ _ _ H). lia. }
      destruct Hin as [p Hp]. rewrite (get_row (made st) (tgt e) (comp e) p Hp). cbn [rbind]. rewrite push_row by done. cbn [rbind].
      eexists. split; [done|]. split; [|done]. cbn [made cheap]. apply (step_old _ _ _ _ _ _ _ _ e (comp e) H He (fun _ => eq_refl) (tgt e, comp e)); [done| |by rewrite Hc].
      apply (canon_same _ _ e2 e M1 He). by right.
    - assert (Hv : exists v, h0 !! wt e = Some v) by (apply lookup_lt_is_Some_2; by apply (Hw (i, k))). destruct Hv as [v Hv].
      destruct (co_heap _ _ _ _ _ _ _ _ H) as [more Hh]. assert (Hget : rget (cheap st) (wt e) = Ok v). { unfold rget. rewrite Hh, lookup_app_l by (by apply lookup_lt_Some in Hv). by rewrite Hv. }
      rewrite Hget. cbn [rbind].
      rewrite push_row by done. cbn [rbind]. eexists. split; [done|]. split; [|done]. cbn [made cheap].
      apply (step_new _ _ _ _ _ _ _ _ e (comp e) H He (fun _ => eq_refl)); done.
  Qed.
End embedded.

(** ** Undirected graphs *)
Fixpoint first_in_row (w k : nat) (r : list (edge nat)) : option nat :=
  match r with [] => None | e :: r => if decide (wt e = w) then Some k else first_in_row w (S k) r end.
Fixpoint first_in (w i : nat) (rows : graph nat) : option pos :=
  match rows with [] => None | r :: rows => match first_in_row w 0 r with Some k => Some (i, k) | None => first_in w (S i) rows end end.

Lemma first_in_row_spec w k r :
  match first_in_row w k r with
  | Some b => exists c e, b = k + c /\ r !! c = Some e /\ wt e = w /\ forall c' e', r !! c' = Some e' -> wt e' = w -> c <= c'
  | None => forall c e, r !! c = Some e -> wt e <> w
  end.
Proof.
  revert k. induction r as [|e r IH]; intros k; cbn [first_in_row]; [done|]. case_decide as He.
  - exists 0, e. split; [lia|]. split; [done|]. split; [done|]. intros; lia.
  - specialize (IH (S k)). destruct (first_in_row w (S k) r) as [b|].
    + destruct IH as (c & e0 & -> & H1 & H2 & H3). exists (S c), e0. split; [lia|]. split; [done|]. split; [done|].
      intros [|c'] e' H4 H5; [cbn in H4; congruence|]. apply le_n_S. by apply (H3 c' e').
    + intros [|c] e0 H1; [cbn in H1; congruence|]. by apply (IH c).
Qed.
Lemma first_in_spec w i rows :
  match first_in w i rows with
  | Some p => exists a e, p.1 = i + a /\ at_ rows (a, p.2) = Some e /\ wt e = w
                /\ forall a' b' e', at_ rows (a', b') = Some e' -> wt e' = w -> a < a' \/ (a = a' /\ p.2 <= b')
  | None => forall q e, at_ rows q = Some e -> wt e <> w
  end.
Proof.
  revert i. induction rows as [|r rows IH]; intros i; cbn [first_in]; [intros [a b] e; by destruct a|].
  pose proof (first_in_row_spec w 0 r) as Hr. destruct (first_in_row w 0 r) as [b|].
  - destruct Hr as (c & e & -> & H1 & H2 & H3). exists 0, e. cbn [fst snd]. split; [lia|]. split; [done|]. split; [done|].
    intros [|a'] b' e' H4 H5; [right; split; [done|]; by apply (H3 b' e')|left; lia].
  - specialize (IH (S i)). destruct (first_in w (S i) rows) as [p|].
    + destruct IH as (a & e & H1 & H2 & H3 & H4). exists (S a), e. split; [lia|]. split; [done|]. split; [done|].
      intros [|a'] b' e' H5 H6; [exfalso; by apply (Hr b' e')|]. destruct (H4 a' b' e' H5 H6) as [?|[-> ?]]; [left; lia|by right].
    + intros [[|a] b] e H1; [by apply (Hr b)|by apply (IH (a, b))].
Qed.

Definition canon_ptr (G : graph nat) (p : pos) : pos := match at_ G p with Some e => default p (first_in (wt e) 0 G) | None => p end.

Section canon_ptr.
  Variable G : graph nat.
  Lemma canon_ptr_spec p e : at_ G p = Some e -> exists e', at_ G (canon_ptr G p) = Some e' /\ wt e' = wt e /\ first_in (wt e) 0 G = Some (canon_ptr G p)
    /\ forall q f, at_ G q = Some f -> wt f = wt e -> beforeb q (canon_ptr G p) = false.
  Proof.
    intros He. unfold canon_ptr. rewrite He. pose proof (first_in_spec (wt e) 0 G) as H. destruct (first_in (wt e) 0 G) as [[a b]|]; cbn [from_option]; unfold id.
    - destruct H as (a' & e' & H1 & H2 & H3 & H4). cbn [fst snd] in *. cbn in H1. subst a'. exists e'. split; [done|]. split; [done|]. split; [done|].
      intros [c d] f Hq Hf. specialize (H4 c d f Hq Hf). unfold beforeb. cbn [fst snd]. lia.
    - exfalso. by apply (H p e).
  Qed.
  Lemma canon_ptr_same p q e e' : at_ G p = Some e -> at_ G q = Some e' -> (canon_ptr G p = canon_ptr G q <-> wt e = wt e').
  Proof.
    intros Hp Hq. destruct (canon_ptr_spec p e Hp) as (f & F1 & F2 & F3 & _). destruct (canon_ptr_spec q e' Hq) as (f' & F1' & F2' & F3' & _). split.
    - intros H. rewrite H in F1. congruence.
    - intros H. rewrite H in F3. congruence.
  Qed.

End canon_ptr.

Section undirected.
  Context {V : Type}.
  Variables (G : graph nat) (h0 : list V).
  Hypothesis (Hw : forall p e, at_ G p = Some e -> wt e < length h0).

  (** The places where addresses were met first are in order, and are all those met. *)
  Definition known (st : copying V) (i k : nat) : Prop :=
    StronglySorted lt (ptr <$> places st)
    /\ (forall x, x ∈ places st -> exists e e', at_ G (place_node x, place_edge x) = Some e /\ wt e = ptr x /\ at_ (made st) (place_node x, place_edge x) = Some e')
    /\ (forall p e e', at_ G p = Some e -> at_ (made st) p = Some e' -> wt e ∈ ptr <$> places st).

  Lemma lower_spec w l : StronglySorted lt (ptr <$> l) ->
    (exists x, l !! lower w l = Some x /\ ptr x = w) \/
    (w ∉ ptr <$> l /\ (forall x, l !! lower w l = Some x -> ptr x <> w) /\
     forall y, ptr y = w -> StronglySorted lt (ptr <$> (take (lower w l) l ++ y :: drop (lower w l) l))).
  Proof.
    induction l as [|x l IH]; cbn [lower fmap list_fmap].
    - intros _. right. split; [apply not_elem_of_nil|]. split; [done|]. intros y _. cbn. repeat constructor.
    - intros Hs. apply StronglySorted_inv in Hs as [Hs Hall]. destruct (Nat.ltb_spec (ptr x) w) as [Hlt|Hge].
      + destruct (IH Hs) as [(z & H1 & H2)|(H1 & H2 & H3)]; [left; by exists z|]. right. split; [rewrite not_elem_of_cons; split; [lia|done]|]. split; [done|].
        intros y Hy. cbn. constructor; [by apply H3|]. rewrite fmap_app. cbn [fmap list_fmap]. apply Forall_app. rewrite <- (take_drop (lower w l) l), fmap_app in Hall.
        apply Forall_app in Hall as [Ha Hb]. split; [done|]. constructor; [lia|done].
      + destruct (decide (ptr x = w)) as [Heq|Hne]; [left; by exists x|]. right. split.
        { rewrite not_elem_of_cons. split; [done|]. intros Hin. rewrite Forall_forall in Hall. apply Hall in Hin. lia. }
        split; [intros z [= <-]; done|]. intros y Hy. cbn. constructor; [by constructor|]. constructor; [lia|]. eapply Forall_impl; [done|]. intros; lia.
  Qed.

  Lemma make_edge_step i k e (st : copying V) : at_ G (i, k) = Some e -> copied Undirected G h0 (canon_ptr G) (made st) (cheap st) i k -> known st i k ->
    exists st', make_edge i k e st = Ok st' /\ copied Undirected G h0 (canon_ptr G) (made st') (cheap st') i (S k) /\ known st' i (S k).
  Proof using Hw.
    intros He H (K1 & K2 & K3). assert (Hc : Undirected = Embedded -> 0 = comp e) by done.
    pose proof (step_lt _ _ _ _ _ _ _ _ e 0 H He Hc) as Hlt. pose proof (step_at _ _ _ _ _ _ _ _ e 0 H He Hc) as Hat.
    pose proof (step_fresh _ _ _ _ _ _ _ _ e 0 H He Hc) as Hnone. destruct (canon_ptr_spec G (i, k) e He) as (e0 & C1 & C2 & C3 & C4).
    assert (Hv : exists v, h0 !! wt e = Some v) by (apply lookup_lt_is_Some_2; by apply (Hw (i, k))). destruct Hv as [v Hv].
    destruct (co_heap _ _ _ _ _ _ _ _ H) as [more Hh].
    assert (Hget : rget (cheap st) (wt e) = Ok v). { unfold rget. rewrite Hh, lookup_app_l by (by apply lookup_lt_Some in Hv). by rewrite Hv. }
    (* what comes before has been copied *)
    assert (Hdone : forall q f, at_ G q = Some f -> beforeb q (i, k) = true -> exists f', at_ (made st) q = Some f').
    { intros [a b] f Hq Hb. apply lookup_lt_is_Some_2. cbn [fst snd]. apply lookup_lt_Some in Hq. cbn [fst snd] in Hq. unfold beforeb in Hb. cbn [fst snd] in Hb.
      destruct (decide (a < i)); [by rewrite (co_rows _ _ _ _ _ _ _ _ H) by done|]. replace a with i in * by lia. rewrite (co_row _ _ _ _ _ _ _ _ H). lia. }
    assert (Hbef : forall q f', at_ (made st) q = Some f' -> beforeb q (i, k) = true).
    { intros [a b] f' Hq. pose proof (row_some_lt _ _ _ _ Hq) as Ha. apply lookup_lt_Some in Hq. cbn [fst snd] in *. rewrite (co_len _ _ _ _ _ _ _ _ H) in Ha.
      unfold beforeb. cbn [fst snd]. destruct (decide (a = i)) as [->|]; [rewrite (co_row _ _ _ _ _ _ _ _ H) in Hq; lia|lia]. }
    assert (Hfresh : wt e ∉ ptr <$> places st -> (forall y, ptr y = wt e -> StronglySorted lt (ptr <$> (take (lower (wt e) (places st)) (places st) ++ y :: drop (lower (wt e) (places st)) (places st)))) ->
      exists st', (let? v := rget (cheap st) (wt e) in
        let? es := push (made st) i (Edge (tgt e) 0 (length (cheap st))) in
        Ok (Copying es (cheap st ++ [v]) (take (lower (wt e) (places st)) (places st) ++ Place (wt e) i k :: drop (lower (wt e) (places st)) (places st)))) = Ok st'
      /\ copied Undirected G h0 (canon_ptr G) (made st') (cheap st') i (S k) /\ known st' i (S k)).
    { intros Hnot Hsort. rewrite Hget. cbn [rbind]. rewrite push_row by done. cbn [rbind]. eexists. split; [done|]. cbn [made cheap places]. split.
      - apply (step_new _ _ _ _ _ _ _ _ e 0 H He Hc v); [|done]. destruct (decide (canon_ptr G (i, k) = (i, k))) as [|Hne]; [done|]. exfalso.
        assert (Hb : beforeb (canon_ptr G (i, k)) (i, k) = true). { apply beforeb_total; [by apply not_eq_sym|]. by apply (C4 _ e). }
        destruct (Hdone _ _ C1 Hb) as [f' Hf']. apply Hnot. rewrite <- C2. by apply (K3 _ e0 f' C1).
      - split; [by apply Hsort|]. assert (Hperm : forall x, x ∈ take (lower (wt e) (places st)) (places st) ++ Place (wt e) i k :: drop (lower (wt e) (places st)) (places st) <-> x = Place (wt e) i k \/ x ∈ places st).
        { intros x. rewrite <- (take_drop (lower (wt e) (places st)) (places st)) at 5. rewrite !elem_of_app, elem_of_cons. tauto. }
        split.
        + cbn [places made]. intros x Hx%Hperm. destruct Hx as [->|Hx].
          * exists e, (Edge (tgt e) 0 (length (cheap st))). cbn [place_node place_edge ptr]. by rewrite Hat, decide_True.
          * destruct (K2 x Hx) as (f & f' & F1 & F2 & F3). exists f, f'. rewrite Hat, decide_False; [done|]. intros Heq. rewrite Heq, Hnone in F3. done.
        + cbn [places made]. intros p f f' Hp. rewrite Hat. rewrite elem_of_list_fmap. case_decide as Heq.
          * intros _. subst p. assert (f = e) as -> by congruence. exists (Place (wt e) i k). split; [done|]. apply Hperm. by left.
          * intros Hf'. specialize (K3 p f f' Hp Hf'). apply elem_of_list_fmap in K3 as (x & Hx1 & Hx2). exists x. split; [done|]. apply Hperm. by right. }
    unfold make_edge. destruct (lower_spec (wt e) (places st) K1) as [(x & X1 & X2)|(L1 & L2 & L3)].
    - rewrite X1, X2, Nat.eqb_refl. destruct (K2 x) as (f & f' & F1 & F2 & F3); [by eapply elem_of_list_lookup_2|].
      rewrite (get_row (made st) (place_node x) (place_edge x) f' F3). cbn [rbind]. rewrite push_row by done. cbn [rbind]. eexists. split; [done|]. cbn [made cheap]. split.
      + apply (step_old _ _ _ _ _ _ _ _ e 0 H He Hc (place_node x, place_edge x) f' F3); [apply (canon_ptr_same G _ _ f e F1 He); congruence|].
        intros Heq. specialize (C4 _ f F1 ltac:(congruence)). rewrite Heq in C4. rewrite (Hbef _ _ F3) in C4. done.
      + split; [done|]. cbn [places made]. split.
        * intros y Hy. destruct (K2 y Hy) as (g & g' & G1 & G2 & G3). exists g, g'. rewrite Hat, decide_False; [done|]. intros Heq. rewrite Heq, Hnone in G3. done.
        * intros p g g' Hp. rewrite Hat. case_decide as Heq; [|by apply K3]. intros _. subst p. assert (g = e) as -> by congruence.
          rewrite <- X2. apply elem_of_list_fmap. exists x. split; [done|]. by eapply elem_of_list_lookup_2.
    - specialize (Hfresh L1 L3). destruct (places st !! lower (wt e) (places st)) as [x|] eqn:Ex; [|done].
      rewrite (proj2 (Nat.eqb_neq (ptr x) (wt e))) by (by apply L2). done.
  Qed.
End undirected.

(** ** The copies *)
Section top.
  Context {V : Type}.
  Implicit Types g c : sgraph V.

  Lemma at_exists g c fl i k e : same_shape fl g c -> row (sedges g) i !! k = Some e -> exists e', row (sedges c) i !! k = Some e'.
  Proof. intros (_ & H & _) He. apply lookup_lt_is_Some_2. rewrite H. by apply lookup_lt_Some in He. Qed.

  Lemma copy_undirected g : weights_exist g ->
    exists c, copy_shared true Undirected g = Ok c /\ same_shape Undirected g c /\ own_weights g c /\ same_values g c /\ same_sharing g c.
  Proof.
    destruct g as [G h0]. intros Hw. assert (Hw' : forall p e, at_ G p = Some e -> wt e < length h0) by (intros [i k] e He; by apply (Hw i k)).
    destruct (copied_all Undirected G h0 (canon_ptr G) make_edge (known G)) as (st & Hst & Hco).
    - intros i k e st. by apply make_edge_step.
    - intros st i k (K1 & K2 & K3) _. assert (Ha : forall p, at_ (made st ++ [[]]) p = at_ (made st) p).
      { intros p. unfold at_. f_equal. destruct (decide (p.1 < length (made st))) as [H|H]; [by apply row_app_l|]. rewrite row_app_r, (row_ge (made st)) by lia.
        by destruct (p.1 - length (made st)) as [|[|]]. }
      split; [done|]. cbn [places made]. split; [intros x Hx; destruct (K2 x Hx) as (f & f' & F1 & F2 & F3); exists f, f'; by rewrite Ha|].
      intros p e e'. rewrite Ha. apply K3.
    - split; [constructor|]. split; [intros x Hx; by apply elem_of_nil in Hx|]. intros [[|a] b] e e' _ H; by destruct b.
    - exists (SGraph (made st) (cheap st)). unfold copy_shared. cbn [sedges heap]. rewrite Hst. cbn [rbind]. split; [done|].
      destruct (copied_result _ _ _ _ _ _ Hco) as (R1 & R2 & R3 & R4). split; [done|]. split; [done|]. split.
      + intros i k e e' He He'. cbn [sedges heap] in *. destruct (R3 (i, k) e' He') as (e1 & H1 & H2).
        destruct (canon_ptr_spec G (i, k) e He) as (e0 & C1 & C2 & _). congruence.
      + intros i k j l e1 e1' e2 e2' H1 H1' H2 H2'. cbn [sedges heap] in *. rewrite (R4 (i, k) (j, l) e1' e2' H1' H2'). by apply canon_ptr_same.
  Qed.

  Lemma copy_halves g : weights_exist g -> halves_ok (sedges g) ->
    exists c, copy_shared true Embedded g = Ok c /\ same_shape Embedded g c /\ own_weights g c /\ halves_ok (sedges c) /\ shared_by_halves (sedges c)
      /\ forall i k e, row (sedges g) i !! k = Some e -> (i < tgt e \/ (i = tgt e /\ k < comp e)) ->
           exists e', row (sedges c) i !! k = Some e' /\ heap c !! wt e' = heap g !! wt e.
  Proof.
    destruct g as [G h0]. intros Hw HG. cbn [sedges heap] in *. assert (Hw' : forall p e, at_ G p = Some e -> wt e < length h0) by (intros [i k] e He; by apply (Hw i k)).
    destruct (copied_all Embedded G h0 (canon_halves G) copy_embedded (fun _ _ _ => True)) as (st & Hst & Hco); [|done|done|].
    { intros i k e st. by apply copy_embedded_step. }
    exists (SGraph (made st) (cheap st)). unfold copy_shared. cbn [sedges heap]. rewrite Hst. cbn [rbind]. split; [done|].
    destruct (copied_result _ _ _ _ _ _ Hco) as (R1 & R2 & R3 & R4). split; [done|]. split; [done|].
    assert (Hback : forall i k e', row (made st) i !! k = Some e' -> exists e, row G i !! k = Some e /\ tgt e' = tgt e /\ comp e' = comp e).
    { intros i k e' He'. destruct R1 as (S1 & S2 & S3). cbn [sedges] in *. destruct (lookup_lt_is_Some_2 (row G i) k) as [e He]; [rewrite <- S2; by apply lookup_lt_Some in He'|].
      exists e. split; [done|]. destruct (S3 i k e e' He He') as [-> Hcomp]. by rewrite Hcomp. }
    split; [|split].
    - intros i k e' He'. destruct (Hback i k e' He') as (e & He & Ht & Hc). destruct (HG i k e He) as (f & F1 & F2 & F3 & F4).
      destruct (at_exists (SGraph G h0) (SGraph (made st) (cheap st)) Embedded _ _ _ R1 F1) as [f' Hf']. cbn [sedges] in Hf'.
      exists f'. rewrite Ht, Hc. split; [done|]. destruct (Hback _ _ f' Hf') as (f0 & Hf0 & Ht0 & Hc0). assert (f0 = f) as -> by congruence. split; [congruence|]. split; [congruence|done].
    - intros i k j l e1 e2 H1 H2. rewrite (R4 (i, k) (j, l) e1 e2 H1 H2). destruct (Hback _ _ _ H1) as (g1 & G1 & T1 & C1). destruct (Hback _ _ _ H2) as (g2 & G2 & T2 & C2).
      rewrite (canon_same G HG (i, k) (j, l) g1 g2 G1 G2). rewrite (mate_of_at G (i, k) g1 G1), T1, C1. done.
    - intros i k e He Hfirst. destruct (at_exists (SGraph G h0) (SGraph (made st) (cheap st)) Embedded _ _ _ R1 He) as [e' He']. cbn [sedges heap] in *.
      exists e'. split; [done|]. destruct (R3 (i, k) e' He') as (e1 & H1 & ->).
      assert (Hc : canon_halves G (i, k) = (i, k)). { unfold canon_halves. rewrite (mate_of_at G (i, k) e He). unfold beforeb. cbn [fst snd].
        destruct ((tgt e <? i) || ((tgt e =? i) && (comp e <? k))) eqn:E; [lia|done]. }
      rewrite Hc in H1. unfold at_ in H1. cbn in H1. congruence.
  Qed.

  Lemma copy_embedded_same g : weights_exist g -> halves_ok (sedges g) -> shared_by_halves (sedges g) ->
    exists c, copy_shared true Embedded g = Ok c /\ same_shape Embedded g c /\ own_weights g c /\ same_values g c /\ same_sharing g c.
  Proof.
    intros Hw HG Hsh. destruct (copy_halves g Hw HG) as (c & Hc & R1 & R2 & R3 & R4 & R5). exists c. split; [done|]. split; [done|]. split; [done|].
    destruct R1 as (S1 & S2 & S3). split.
    - intros i k e e' He He'. destruct (HG i k e He) as (f & F1 & F2 & F3 & F4). destruct (S3 i k e e' He He') as [T1 T2]. specialize (T2 eq_refl).
      destruct (decide (i < tgt e \/ (i = tgt e /\ k < comp e))) as [Hf|Hf].
      + destruct (R5 i k e He Hf) as (e1 & H1 & H2). by assert (e1 = e') as -> by congruence.
      + destruct (R5 (tgt e) (comp e) f F1) as (f' & H1 & H2).
        { rewrite F2, F3. destruct (decide (i = tgt e)) as [Heq|]; [|left; lia]. right. split; [done|]. assert (k <> comp e) by (intros ->; apply F4; congruence). lia. }
        assert (wt e' = wt f') as ->. { apply (R4 i k (tgt e) (comp e) e' f' He' H1). right. by rewrite T1, T2. }
        rewrite H2. f_equal. symmetry. apply (Hsh i k (tgt e) (comp e) e f He F1). by right.
    - intros i k j l e1 e1' e2 e2' H1 H1' H2 H2'. rewrite (R4 i k j l e1' e2' H1' H2'), (Hsh i k j l e1 e2 H1 H2).
      destruct (S3 i k e1 e1' H1 H1') as [-> T2]. by rewrite T2.
  Qed.

  (** Changes of the one do not show in the other. *)
  Lemma copy_independent fl g c i k v : weights_exist g -> own_weights g c ->
    (forall c', sstep fl (SSet i k v) c = Ok c' -> forall j l e, row (sedges g) j !! l = Some e -> sweight (SGraph (sedges g) (heap c')) j l = sweight g j l) /\
    (forall g', sstep fl (SSet i k v) (SGraph (sedges g) (heap c)) = Ok g' -> forall j l e, row (sedges c) j !! l = Some e -> sweight (SGraph (sedges c) (heap g')) j l = sweight c j l).
  Proof.
    intros Hw [[more Hm] Ho]. assert (Hget : forall (es : graph nat) i k e, get es i k = Ok e -> row es i !! k = Some e).
    { intros es a b e. unfold get, rget, row. destruct (es !! a); cbn [rbind default]; [|done]. unfold from_option, id. destruct (l !! b); cbn; congruence. }
    assert (Hset : forall (h h' : list V) n x, rset h n x = Ok h' -> h' = <[n := x]> h). { intros h h' n x. unfold rset. destruct (h !! n); congruence. }
    split.
    - intros c' Hs j l e He. unfold sstep in Hs. destruct (get (sedges c) i k) as [ec| | |] eqn:Eg; try done. cbn [rbind] in Hs.
      destruct (rset (heap c) (wt ec) v) as [h| | |] eqn:Eh; try done. cbn [rbind] in Hs. injection Hs as <-. apply Hset in Eh as ->.
      unfold sweight. cbn [sedges heap]. rewrite (get_row _ _ _ _ He). cbn [rbind]. unfold rget. specialize (Ho i k ec (Hget _ _ _ _ Eg)). specialize (Hw j l e He).
      rewrite list_lookup_insert_ne by lia. by rewrite Hm, lookup_app_l by done.
    - intros g' Hs j l e He. unfold sstep in Hs. cbn [sedges heap] in Hs. destruct (get (sedges g) i k) as [eg| | |] eqn:Eg; try done. cbn [rbind] in Hs.
      destruct (rset (heap c) (wt eg) v) as [h| | |] eqn:Eh; try done. cbn [rbind] in Hs. injection Hs as <-. apply Hset in Eh as ->.
      unfold sweight. cbn [sedges heap]. rewrite (get_row _ _ _ _ He). cbn [rbind]. unfold rget. specialize (Ho j l e He). specialize (Hw i k eg (Hget _ _ _ _ Eg)).
      by rewrite list_lookup_insert_ne by lia.
  Qed.
End top.
