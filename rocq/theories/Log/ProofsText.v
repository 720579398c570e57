(** Proofs about the text of the messages. *)
From Coq Require Import ZArith Ascii.
From stdpp Require Import list.
From Verif.Base Require Import Outcome ListLemmas.
From Verif.Text Require Import Model Spec Proofs ProofsCase ProofsIndent.
From Verif.Log Require Import Model Spec SpecText Proofs.
Local Open Scope res_scope.

(** ** One failure *)

Lemma at_depth_indented d l : at_depth d l = indented (repeat " "%char (2 * d)) l.
Proof. done. Qed.

Lemma indented_given ind l : l <> [] -> indented ind l <> [].
Proof.
  intros Hl. unfold indented. pose proof (join_lines l) as E. destruct (lines l) as [|w ws] eqn:El; [by apply lines_ne in El|].
  rewrite join_cons in *. cbn [map]. rewrite join_cons. destruct w as [|c w].
  - cbn [indent_line]. destruct ws as [|v ws]; [by simpl in E|]. simpl. done.
  - cbn [indent_line]. destruct ind; done.
Qed.

Lemma indented_nil ind : indented ind [] = [].
Proof. done. Qed.

Lemma build_spec ps t ind : Forall (fun p => p <> []) ps ->
  build (join [nl] ps) t ind = Ok (join [nl] (ps ++ List.filter given [indented ind t])).
Proof.
  intros Hps. unfold build, indent_, append_indented_. destruct ps as [|p ps].
  - cbn [join]. rewrite indent_spec by lia. destruct t as [|c t]; [done|].
    pose proof (indented_given ind (c :: t) ltac:(done)) as Hne. cbn [List.filter]. by destruct (indented ind (c :: t)).
  - apply Forall_cons in Hps as [Hp _]. rewrite (join_cons [nl] p ps). destruct p as [|x p]; [done|]. cbn [app].
    rewrite append_indented_spec by lia. destruct t as [|c t].
    + cbn [List.filter given indented]. rewrite indented_nil. cbn [given List.filter]. rewrite app_nil_r, join_cons. done.
    + fold (indented ind (c :: t)). pose proof (indented_given ind (c :: t) ltac:(done)) as Hne. cbn [List.filter].
      destruct (indented ind (c :: t)) as [|y u] eqn:E; [done|]. cbn [given]. rewrite join_cons. cbn [app].
      rewrite !map_app, !concat_app. cbn [map concat]. rewrite app_nil_r. f_equal. f_equal.
      rewrite <- !app_assoc. done.
Qed.

(** The flags of the levels agree with what has been reported. *)
Definition marked (seen : list nat) (here : list scope) (levels : list (text * bool)) : Prop :=
  Forall2 (fun (s : scope) l => fst l = snd s /\ (snd s <> [] -> snd l = bool_decide (fst s ∈ seen))) here levels.

Definition blanks (d : nat) : text := repeat " "%char (2 * d).

Definition heads (seen : list nat) (d : nat) (here : list scope) : list text :=
  omap (fun x => x) (imap (fun depth (s : scope) => if decide (fst s ∈ seen) then None else Some (at_depth (d + depth) (snd s))) (headed here)).

Lemma heads_cons seen d s here : snd s <> [] ->
  heads seen d (s :: here) =
  (if decide (fst s ∈ seen) then [] else [at_depth d (snd s)]) ++ heads seen (S d) here.
Proof.
  intros Hs. unfold heads, headed. cbn [List.filter]. destruct s as [n m]. cbn [snd fst] in *. destruct m as [|c m]; [done|].
  cbn [given imap]. cbn [fst snd]. rewrite Nat.add_0_r. 
  assert (forall (l : list scope) ,
    imap (compose (fun depth (s : scope) => if decide (fst s ∈ seen) then None else Some (at_depth (d + depth) (snd s))) S) l =
    imap (fun depth (s : scope) => if decide (fst s ∈ seen) then None else Some (at_depth (S d + depth) (snd s))) l) as E.
  { intros l. apply imap_ext. intros i x _. unfold compose. by rewrite Nat.add_succ_r. }
  case_decide; cbn [omap list_omap]; by rewrite E.
Qed.

Lemma heads_skip seen d n here : heads seen d ((n, []) :: here) = heads seen d here.
Proof. done. Qed.

Lemma write_levels_spec seen here : forall levels d ps, marked seen here levels -> Forall (fun p => p <> []) ps ->
  exists ls, write_levels levels (blanks (d - 1)) d (join [nl] ps) =
      Ok (join [nl] (ps ++ heads seen d here), blanks (d + length (headed here) - 1), ls) /\
    marked (seen ++ map fst here) here ls /\ Forall (fun p => p <> []) (heads seen d here).
Proof.
  intros levels d ps Hm. 
  assert (forall seen' : list nat, (forall n, n ∈ seen -> n ∈ seen') -> (forall s, s ∈ here -> fst s ∈ seen') ->
    forall d ps, Forall (fun p => p <> []) ps ->
    exists ls, write_levels levels (blanks (d - 1)) d (join [nl] ps) =
      Ok (join [nl] (ps ++ heads seen d here), blanks (d + length (headed here) - 1), ls) /\
    marked seen' here ls /\ Forall (fun p => p <> []) (heads seen d here)) as H.
  { intros seen' Hsub. induction Hm as [|[n m] [m' w] here levels [Hm' Hw] Hm IH]; intros Hin d' ps' Hps.
    - exists []. cbn [write_levels]. change (heads seen d' []) with (@nil text). change (length (headed [])) with 0.
      rewrite Nat.add_0_r, (app_nil_r ps'). split; [done|]. split; constructor.
    - cbn [fst snd] in *. subst m'. cbn [write_levels].
      assert (forall s, s ∈ here -> fst s ∈ seen') as Hin' by (intros s Hs; apply Hin; by right).
      destruct m as [|c m].
      + destruct (IH Hin' d' ps' Hps) as (ls&->&Hls&HF). cbn [rbind]. eexists. split; [by rewrite heads_skip|].
        split; [|by rewrite heads_skip]. constructor; [|done]. done.
      + specialize (Hw ltac:(done)). subst w.
        assert (match d' with 0 => blanks (d' - 1) | S _ => blanks (d' - 1) ++ [" "; " "]%char end = blanks d') as Eb.
        { destruct d' as [|d']; [done|]. unfold blanks. replace (2 * S d') with (2 * d' + 2) by lia.
          rewrite repeat_app. replace (S d' - 1) with d' by lia. done. }
        rewrite Eb. replace (blanks d') with (blanks (S d' - 1)) by (f_equal; lia).
        assert (d' + length (headed (@cons (nat * text) (n, c :: m) here)) - 1 = S d' + length (headed here) - 1) as El.
        { unfold headed. cbn [List.filter snd given length]. lia. }
        rewrite heads_cons by done. cbn [fst snd]. case_bool_decide as Es.
        * rewrite decide_True by done. cbn [app].
          destruct (IH Hin' (S d') ps' Hps) as (ls&->&Hls&HF). cbn [rbind]. eexists. split; [exact (f_equal (fun k => Ok (_, blanks k, _)) (eq_sym El))|].
          split; [|done]. constructor; [|done]. cbn [fst snd]. split; [done|]. intros _. symmetry.
          apply bool_decide_eq_true. by apply Hsub.
        * rewrite decide_False by done. rewrite build_spec by done. cbn [rbind].
          replace (S d' - 1) with d' by lia.
          assert (indented (blanks d') (c :: m) <> []) as Hne by (by apply indented_given).
          assert (List.filter given [indented (blanks d') (c :: m)] = [at_depth d' (c :: m)]) as Ef.
          { cbn [List.filter]. rewrite at_depth_indented. unfold blanks in *. by destruct (indented (repeat " "%char (2 * d')) (c :: m)). }
          rewrite Ef. replace (blanks d') with (blanks (S d' - 1)) by (f_equal; lia).
          destruct (IH Hin' (S d') (ps' ++ [at_depth d' (c :: m)])) as (ls&->&Hls&HF).
          { apply Forall_app. split; [done|]. by apply Forall_singleton. }
          cbn [rbind]. eexists. split; [rewrite <- app_assoc; exact (f_equal (fun k => Ok (_, blanks k, _)) (eq_sym El))|].
          split; [|by apply Forall_cons]. constructor; [|done]. cbn [fst snd]. split; [done|]. intros _. symmetry.
          apply bool_decide_eq_true. exact (Hin (n, c :: m) ltac:(by left)). }
  intros Hps. apply H; [| |done].
  - intros n Hn. apply elem_of_app. by left.
  - intros s Hs. apply elem_of_app. right. by apply elem_of_list_fmap_1.
Qed.

(** ** The texts of the state *)

Record ttexts := mk_texts { t_mess : list text; t_diag : list text; t_caught : list text }.
Definition texts_of (st : logger) : ttexts :=
  let r := res_of st in
  mk_texts (map snd (failure_messages r)) (map snd (diagnostics_output r)) (map snd (caught_exception_messages r)).

Definition t_push (tomsg : bool) (t : text) (v : ttexts) : ttexts :=
  if tomsg then mk_texts (t_mess v ++ [t]) (t_diag v) (t_caught v) else mk_texts (t_mess v) (t_diag v ++ [t]) (t_caught v).

Lemma failure_message_text md m crit st seen here : marked seen here (stack st) ->
  exists st', failure_message md m crit st = Ok st' /\ marked (seen ++ map fst here) here (stack st') /\
    texts_of st' = t_push (to_messages md crit) (end_line (block seen here m)) (texts_of st).
Proof.
  intros Hm. unfold failure_message.
  destruct (write_levels_spec seen here (stack st) 0 [] Hm ltac:(done)) as (ls&E&Hls&HF).
  change (blanks (0 - 1)) with (@nil ascii) in E. cbn [join] in E. rewrite E. cbn [rbind app].
  rewrite build_spec by done. cbn [rbind]. eexists. split; [done|]. split; [done|].
  unfold texts_of, push_channel, t_push. cbn [res_of]. destruct (to_messages md crit); cbn; by rewrite map_app.
Qed.

(** The channels to which failures go. *)
Definition chan (md : mode) (e : event) : bool := to_messages md (is_critical e).

Definition t_leaf (md : mode) (top : text) (seen : list nat) (p : list scope * event) (v : ttexts) : ttexts :=
  match failing (snd p) with
  | Some m => t_push (chan md (snd p)) (end_line (block seen (fst p) m)) v
  | None => match snd p with
            | Caught m => mk_texts (t_mess v) (t_diag v) (t_caught v ++ [end_check (top ++ [nl] ++ m)])
            | _ => v
            end
  end.
Definition seen_after (seen : list nat) (p : list scope * event) : list nat :=
  match failing (snd p) with Some _ => seen ++ map fst (fst p) | None => seen end.
Fixpoint t_run (md : mode) (top : text) (seen : list nat) (l : list (list scope * event)) (v : ttexts) : ttexts :=
  match l with
  | [] => v
  | p :: l' => t_run md top (seen_after seen p) l' (t_leaf md top seen p v)
  end.
Definition seen_all (seen : list nat) (l : list (list scope * event)) : list nat := fold_left seen_after l seen.

Lemma t_run_app md top l1 : forall l2 seen v,
  t_run md top seen (l1 ++ l2) v = t_run md top (seen_all seen l1) l2 (t_run md top seen l1 v).
Proof. induction l1 as [|p l1 IH]; intros l2 seen v; [done|]. cbn. apply IH. Qed.

Lemma seen_all_app l1 l2 seen : seen_all seen (l1 ++ l2) = seen_all (seen_all seen l1) l2.
Proof. apply fold_left_app. Qed.

Fixpoint located_all (here : list scope) (n : nat) (es : list event) : list (list scope * event) * nat :=
  match es with
  | [] => ([], n)
  | e :: es' => let (l, k1) := located here n e in let (l', k2) := located_all here k1 es' in (l ++ l', k2)
  end.

Lemma located_scope here n m es : located here n (Scope m es) = located_all (here ++ [(n, m)]) (S n) es.
Proof.
  cbn [located]. generalize (S n) as k. induction es as [|e es IH]; intros k; [done|]. cbn [located_all].
  destruct (located (here ++ [(n, m)]) k e) as [l k1]. by rewrite IH.
Qed.

Definition below (n : nat) (l : list nat) : Prop := Forall (fun k => k < n) l.

Lemma below_mono n n' l : n <= n' -> below n l -> below n' l.
Proof. intros H Hl. eapply Forall_impl; [exact Hl|]. cbn. lia. Qed.

Lemma marked_snoc seen here levels n m : marked seen here levels -> n ∉ seen ->
  marked seen (here ++ [(n, m)]) (levels ++ [(m, false)]).
Proof.
  intros H Hn. apply Forall2_app; [done|]. constructor; [|constructor]. cbn. split; [done|]. intros _.
  symmetry. by apply bool_decide_eq_false.
Qed.

Lemma marked_length seen here levels : marked seen here levels -> length levels = length here.
Proof. intros H. symmetry. by eapply Forall2_length. Qed.

Lemma marked_take seen here s levels : marked seen (here ++ [s]) levels -> marked seen here (take (length levels - 1) levels).
Proof.
  intros H. pose proof (marked_length _ _ _ H) as Hl. rewrite app_length in Hl. cbn in Hl.
  replace (length levels - 1) with (length here) by lia.
  apply Forall2_app_inv_l in H as (l1&l2&H1&_&->). pose proof (marked_length _ _ _ H1) as E. rewrite <- E, take_app. done.
Qed.

Lemma top_of_marked seen s here st : marked seen (s :: here) (stack st) -> top_level_message st = snd s.
Proof. intros H. inversion H as [|? [m w] ? ? [E _] _ E1 E2]. unfold top_level_message. by rewrite <- E2. Qed.

Lemma run_text md e : forall s here n seen st, below n (map fst (s :: here)) -> below n seen -> marked seen (s :: here) (stack st) ->
  let (l, n') := located (s :: here) n e in
  exists st', run_event md e st = Ok st' /\ n <= n' /\ below n' (seen_all seen l) /\
    marked (seen_all seen l) (s :: here) (stack st') /\ texts_of st' = t_run md (snd s) seen l (texts_of st).
Proof.
  induction e as [| | | | | |m es IH] using event_ind'; intros s here n seen st Hn Hs Hm.
  - exists (log_check st). done.
  - exists (log_performance_check st). done.
  - cbn [located run_event]. unfold log_failure.
    edestruct (failure_message_text md m false) as (st'&->&Hm'&Ht); [exact Hm|]. eexists. split; [done|].
    split; [done|]. split; [by apply Forall_app|]. split; [done|]. by rewrite Ht.
  - cbn [located run_event]. unfold log_performance_failure, log_failure.
    edestruct (failure_message_text md m false) as (st'&->&Hm'&Ht); [exact Hm|]. eexists. split; [done|].
    split; [done|]. split; [by apply Forall_app|]. split; [done|]. by rewrite Ht.
  - cbn [located run_event]. unfold log_critical_failure.
    edestruct (failure_message_text md m true) as (st'&->&Hm'&Ht); [exact Hm|]. eexists. split; [done|].
    split; [done|]. split; [by apply Forall_app|]. split; [done|]. by rewrite Ht.
  - cbn [located run_event]. eexists. split; [done|]. split; [done|]. split; [done|]. split; [done|].
    unfold texts_of, log_caught_exception_message. cbn. rewrite map_app. cbn. by rewrite (top_of_marked _ _ _ _ Hm).
  - rewrite located_scope, run_event_scope.
    assert (forall here0 n0 seen0 st0, below n0 (map fst (s :: here0)) -> below n0 seen0 -> marked seen0 (s :: here0) (stack st0) ->
      let (l, n') := located_all (s :: here0) n0 es in
      exists st', run_events md es st0 = Ok st' /\ n0 <= n' /\ below n' (seen_all seen0 l) /\
        marked (seen_all seen0 l) (s :: here0) (stack st') /\ texts_of st' = t_run md (snd s) seen0 l (texts_of st0)) as Hes.
    { clear -IH. intros here0. induction IH as [|e es He _ IH]; intros n0 seen0 st0 Hn Hs Hm; [by exists st0|].
      cbn [located_all run_events]. specialize (He s here0 n0 seen0 st0 Hn Hs Hm).
      destruct (located (s :: here0) n0 e) as [l k1]. destruct He as (st1&->&Hk1&Hb1&Hm1&Ht1). cbn [rbind].
      specialize (IH k1 (seen_all seen0 l) st1 (below_mono _ _ _ Hk1 Hn) Hb1 Hm1).
      destruct (located_all (s :: here0) k1 es) as [l' k2]. destruct IH as (st2&->&Hk2&Hb2&Hm2&Ht2).
      exists st2. rewrite seen_all_app, t_run_app, <- Ht1. split; [done|]. split; [lia|]. done. }
    unfold open_sentinel. cbn [fst snd].
    pose proof (marked_length _ _ _ Hm) as Hlen. destruct (stack st) as [|x xs] eqn:Es; [done|]. rewrite <- Es in Hlen, Hm.
    specialize (Hes (here ++ [(n, m)]) (S n) seen (increment_depth m st)).
    change ((s :: here) ++ [(n, m)]) with (s :: (here ++ [(n, m)])) in *.
    destruct (located_all (s :: here ++ [(n, m)]) (S n) es) as [l n'].
    destruct Hes as (st2&->&Hn'&Hb&Hm2&Ht).
    { change (s :: here ++ [(n, m)]) with ((s :: here) ++ [(n, m)]). rewrite map_app. apply Forall_app.
      split; [eapply below_mono; [|done]; lia|]. apply Forall_singleton. cbn. lia. }
    { eapply below_mono; [|done]. lia. }
    { cbn [increment_depth stack]. apply (marked_snoc seen (s :: here) (stack st)); [done|].
      intros Hin. pose proof (proj1 (Forall_forall _ _) Hs n Hin). cbn in *. lia. }
    cbn [rbind]. unfold close_sentinel. pose proof (marked_length _ _ _ Hm2) as Hl2. cbn [length] in Hl2.
    rewrite app_length in Hl2. cbn [length] in Hl2. rewrite decide_False by lia. cbn [rbind].
    unfold decrement_depth. destruct (stack st2) as [|y ys] eqn:Ey; [done|]. rewrite <- Ey in *.
    eexists. split; [done|]. split; [lia|]. split; [done|]. split; [|exact Ht].
    cbn [stack]. apply (marked_take _ (s :: here) (n, m)). exact Hm2.
Qed.

Lemma run_texts md es : forall s n seen st, below n [fst s] -> below n seen -> marked seen [s] (stack st) ->
  let (l, n') := located_all [s] n es in
  exists st', run_events md es st = Ok st' /\ marked (seen_all seen l) [s] (stack st') /\
    texts_of st' = t_run md (snd s) seen l (texts_of st).
Proof.
  induction es as [|e es IH]; intros s n seen st Hn Hs Hm; [by exists st|]. cbn [located_all run_events].
  pose proof (run_text md e s [] n seen st Hn Hs Hm) as He.
  destruct (located [s] n e) as [l k1]. destruct He as (st1&->&Hk1&Hb1&Hm1&Ht1). cbn [rbind].
  specialize (IH s k1 (seen_all seen l) st1 (below_mono _ _ _ Hk1 Hn) Hb1 Hm1).
  destruct (located_all [s] k1 es) as [l' k2]. destruct IH as (st2&->&Hm2&Ht2).
  exists st2. rewrite seen_all_app, t_run_app, <- Ht1. done.
Qed.

(** ** What the failures within a check add *)

Lemma t_run_spec md top l : forall seen v,
  t_run md top seen l v =
  mk_texts (t_mess v ++ map (fun b => end_line (snd b)) (List.filter (fun b => chan md (fst b)) (blocks seen l)))
    (t_diag v ++ map (fun b => end_line (snd b)) (List.filter (fun b => negb (chan md (fst b))) (blocks seen l)))
    (t_caught v ++ omap (fun e => match e with Caught m => Some (end_check (top ++ [nl] ++ m)) | _ => None end) (map snd l)).
Proof.
  induction l as [|[here e] l IH]; intros seen v.
  - destruct v. cbn. by rewrite !app_nil_r.
  - cbn [t_run]. rewrite IH. unfold t_leaf, seen_after. cbn [fst snd blocks].
    destruct e; cbn [failing]; try done; cbn [List.filter map fst snd omap list_omap];
      unfold t_push; try destruct (chan _ _); cbn [negb map fst snd t_mess t_diag t_caught]; by rewrite <- ?app_assoc.
Qed.

Lemma located_leaves e : forall here n, map snd (fst (located here n e)) = leaves e.
Proof.
  induction e as [| | | | | |m es IH] using event_ind'; intros here n; [done..|].
  rewrite located_scope. cbn [leaves]. generalize (here ++ [(n, m)]) (S n). clear here n.
  induction IH as [|e es He _ IH]; intros here n; [done|]. cbn [located_all]. specialize (He here n).
  destruct (located here n e) as [l k]. specialize (IH here k). destruct (located_all here k es) as [l' k']. cbn [fst map concat] in *.
  rewrite map_app. by f_equal.
Qed.

Lemma located_in_leaves c : map snd (located_in c) = in_check c.
Proof. unfold located_in. rewrite located_leaves. done. Qed.

Lemma blocks_events l : forall seen, map fst (blocks seen l) = List.filter (fun e => is_failure e || is_critical e) (map snd l).
Proof.
  induction l as [|[here e] l IH]; intros seen; [done|]. cbn [blocks map List.filter snd].
  destruct e; cbn [failing map fst]; cbn [is_failure is_critical orb]; rewrite ?IH; done.
Qed.

Lemma texts_length p c : length (texts p c) = count (fun e => (is_failure e || is_critical e) && p e) (in_check c).
Proof.
  unfold texts. rewrite map_length. unfold count. rewrite <- located_in_leaves.
  transitivity (length (List.filter p (map fst (blocks [] (located_in c))))).
  - induction (blocks [] (located_in c)) as [|b bs IH]; [done|]. cbn [List.filter map]. destruct (p (fst b)); cbn [length]; congruence.
  - rewrite blocks_events. induction (map snd (located_in c)) as [|e es IH]; [done|]. cbn [List.filter].
    destruct (is_failure e || is_critical e); cbn [List.filter andb]; [destruct (p e); cbn [length]; congruence|done].
Qed.

Lemma blocks_failing seen l b : b ∈ blocks seen l -> is_failure (fst b) || is_critical (fst b) = true.
Proof.
  intros Hb. assert (fst b ∈ map fst (blocks seen l)) as H by (by apply elem_of_list_fmap_1).
  rewrite blocks_events in H. apply elem_of_list_In, filter_In in H. apply H.
Qed.

Lemma texts_ext p q c : (forall e, is_failure e || is_critical e = true -> p e = q e) -> texts p c = texts q c.
Proof.
  intros H. unfold texts. f_equal. pose proof (blocks_failing [] (located_in c)) as Hb.
  induction (blocks [] (located_in c)) as [|b bs IH]; [done|]. cbn [List.filter].
  rewrite (H (fst b)) by (apply Hb; by left). rewrite IH; [done|]. intros b' Hb'. apply Hb. by right.
Qed.

(** ** The end of a check *)

Lemma ended_snoc l x : ended (l ++ [x]) = l ++ [end_check x].
Proof. induction l as [|y l IH]; [done|]. cbn [app]. destruct l as [|z l]; [done|]. cbn [ended app] in *. by rewrite IH. Qed.

Lemma ended_app l l' : l' <> [] -> ended (l ++ l') = l ++ ended l'.
Proof.
  intros H. destruct l' as [|x l' _] using rev_ind; [done|]. by rewrite app_assoc, !ended_snoc, app_assoc.
Qed.

Lemma end_last_text l : l <> [] -> exists l', end_last l = Ok l' /\ map snd l' = ended (map snd l).
Proof.
  intros H. destruct l as [|x l _] using rev_ind; [done|].
  unfold end_last. rewrite last_snoc. destruct x as [i m]. eexists. split; [done|].
  rewrite !map_app. rewrite app_length. simpl. replace (length l + 1 - 1) with (length l) by lia. rewrite take_app.
  by rewrite ended_snoc.
Qed.

Lemma end_message_text md crit st :
  (if to_messages md crit then t_mess (texts_of st) else t_diag (texts_of st)) <> [] ->
  exists st', end_message md crit st = Ok st' /\ stack st' = stack st /\ view_of st' = view_of st /\ texts_of st' =
    (if to_messages md crit then mk_texts (ended (t_mess (texts_of st))) (t_diag (texts_of st)) (t_caught (texts_of st))
     else mk_texts (t_mess (texts_of st)) (ended (t_diag (texts_of st))) (t_caught (texts_of st))).
Proof.
  intros H. unfold end_message. destruct (to_messages md crit).
  - assert (failure_messages (res_of st) <> []) as Hne.
    { intros E. apply H. unfold texts_of. cbn. by rewrite E. }
    destruct (end_last_text _ Hne) as (l&El&Hl). destruct (end_last_ok _ Hne) as (l2&El2&Hl2).
    rewrite El in El2. injection El2 as <-. rewrite El.
    eexists. split; [done|]. split; [done|]. unfold view_of, texts_of. cbn. by rewrite Hl, Hl2.
  - assert (diagnostics_output (res_of st) <> []) as Hne.
    { intros E. apply H. unfold texts_of. cbn. by rewrite E. }
    destruct (end_last_text _ Hne) as (l&El&Hl). destruct (end_last_ok _ Hne) as (l2&El2&Hl2).
    rewrite El in El2. injection El2 as <-. rewrite El.
    eexists. split; [done|]. split; [done|]. unfold view_of, texts_of. cbn. by rewrite Hl, Hl2.
Qed.

Lemma append_lines__spec s ss : append_lines_ s ss = Ok (join [nl] (List.filter given (s :: ss))).
Proof.
  unfold append_lines_. rewrite append_lines_spec; [done|].
  pose proof (proj1 (list_max_le (map length ss) (list_max (map length ss))) (le_n _)) as H.
  rewrite List.Forall_forall in H. apply Forall_forall. intros x Hx.
  specialize (H (length x)). apply elem_of_list_In in Hx. specialize (H (in_map _ _ _ Hx)). lia.
Qed.

Lemma texts_ne p c : any (fun e => (is_failure e || is_critical e) && p e) (in_check c) = true -> texts p c <> [].
Proof. intros H E. apply (f_equal length) in E. rewrite texts_length in E. destruct (count_pos _ _ H). cbn in E. lia. Qed.

Lemma any_ext p q l : (forall e, p e = q e) -> any p l = any q l.
Proof. intros H. unfold any. induction l as [|e l IH]; [done|]. cbn. by rewrite H, IH. Qed.

Lemma texts_none p c : any (fun e => (is_failure e || is_critical e) && p e) (in_check c) = false -> texts p c = [].
Proof. intros H. apply nil_length_inv. by rewrite texts_length, (count_none _ _ H). Qed.

Lemma any_false l : any (fun _ => false) l = false.
Proof. by induction l. Qed.

Lemma any_or p q l : any (fun e => p e || q e) l = any p l || any q l.
Proof. unfold any. induction l as [|e l IH]; [done|]. cbn. rewrite IH. by destruct (p e), (q e), (existsb p l). Qed.

Lemma check_text md m es st : stack st = [] -> exists st', run_event md (Scope m es) st = Ok st' /\ stack st' = [] /\
  texts_of st' = mk_texts (t_mess (texts_of st) ++ check_messages md (m, es)) (t_diag (texts_of st) ++ check_diagnostics md (m, es))
    (t_caught (texts_of st) ++ check_caught (m, es)).
Proof.
  intros Hst. rewrite run_event_scope. unfold open_sentinel. rewrite Hst. cbn [fst snd].
  set (st1 := increment_depth m (log_top_level_check st)).
  assert (stack st1 = [(m, false)]) as Hs1 by (unfold st1; cbn; by rewrite Hst).
  destruct (run_inners md es st1) as (st2&Er&Hl&Hv); [by rewrite Hs1|].
  pose proof (run_texts md es (0, m) 1 [] st1) as Ht.
  assert (located_in (m, es) = fst (located_all [(0, m)] 1 es)) as Eloc.
  { unfold located_in. cbn [fst snd]. by rewrite located_scope. }
  destruct (located_all [(0, m)] 1 es) as [l n']. cbn [fst] in Eloc.
  destruct Ht as (st2'&Er'&Hm2&Ht2); [by apply Forall_singleton; cbn; lia|by apply Forall_nil| |].
  { rewrite Hs1. constructor; [|constructor]. cbn. split; [done|]. intros _. symmetry. apply bool_decide_eq_false. intros H. inversion H. }
  rewrite Er in Er'. injection Er' as <-. rewrite Er. cbn [rbind snd] in Ht2 |- *.
  rewrite t_run_spec, <- Eloc in Ht2. change (texts_of st1) with (texts_of st) in Ht2.
  pose proof (top_of_marked _ _ _ _ Hm2) as Htop. cbn [snd] in Htop.
  assert (length (stack st2) = 1) as Hl1 by (by rewrite Hl, Hs1).
  change (concat (map leaves es)) with (in_check (m, es)) in Hv.
  rewrite (v_run_spec md _ (in_check_flat (m, es))) in Hv.
  set (c := (m, es)) in *. rewrite located_in_leaves in Ht2.
  change (omap _ (in_check c)) with (check_caught c) in Ht2.
  change (map (fun b => end_line (snd b)) (List.filter (fun a => chan md (fst a)) (blocks [] (located_in c)))) with (texts (chan md) c) in Ht2.
  change (map (fun b => end_line (snd b)) (List.filter (fun a => negb (chan md (fst a))) (blocks [] (located_in c))))
    with (texts (fun e => negb (chan md e)) c) in Ht2.
  unfold close_sentinel. rewrite decide_True by done. cbn [prior_failures prior_critical].
  set (pf := failures (res_of st)) in *. set (pc := critical_failures (res_of st)) in *.
  assert (critical_failures (res_of st2) = pc + count is_critical (in_check c)) as Hcrit by exact (f_equal v_critical Hv).
  assert (failures (res_of st2) = pf + count is_failure (in_check c)) as Hfail by exact (f_equal v_failures Hv).
  assert (negb (critical_failures (res_of st2) =? pc) = any is_critical (in_check c)) as Hca.
  { rewrite any_count, Hcrit. f_equal. lia. }
  assert (negb (failures (res_of st2) =? pf) = any is_failure (in_check c)) as Hfa.
  { rewrite any_count, Hfail. f_equal. lia. }
  assert (any (fun e => is_failure e || is_critical e) (in_check c) = any is_failure (in_check c) || any is_critical (in_check c)) as Hboth by apply any_or.
  (* the channels, by mode *)
  assert (match md with
          | FalseNegative => texts (chan md) c = texts is_critical c /\ texts (fun e => negb (chan md e)) c = texts is_failure c
          | _ => texts (chan md) c = texts (fun e => is_failure e || is_critical e) c /\ texts (fun e => negb (chan md e)) c = []
          end) as Hch.
  { destruct md.
    - split; [apply texts_ext; by intros e ->|]. apply texts_none. rewrite (any_ext _ (fun _ => false)); [apply any_false|].
      intros e. cbn. by rewrite andb_false_r.
    - split; [apply texts_ext; by intros e ->|]. apply texts_none. rewrite (any_ext _ (fun _ => false)); [apply any_false|].
      intros e. cbn. by rewrite andb_false_r.
    - split; apply texts_ext; intros e; by destruct e. }
  assert (any is_critical (in_check c) = true -> texts is_critical c <> []) as Hnec.
  { intros H. apply texts_ne. rewrite <- H. apply any_ext. by intros []. }
  assert (any is_failure (in_check c) = true -> texts is_failure c <> []) as Hnef.
  { intros H. apply texts_ne. rewrite <- H. apply any_ext. by intros []. }
  assert (any is_failure (in_check c) || any is_critical (in_check c) = true -> texts (fun e => is_failure e || is_critical e) c <> []) as Hneb.
  { intros H. apply texts_ne. rewrite <- H, <- Hboth. apply any_ext. by intros []. }
  assert (any is_critical (in_check c) = false -> texts is_critical c = []) as Hnc.
  { intros H. apply texts_none. rewrite <- H. apply any_ext. by intros []. }
  assert (any is_failure (in_check c) = false -> texts is_failure c = []) as Hnf.
  { intros H. apply texts_none. rewrite <- H. apply any_ext. by intros []. }
  assert (any is_failure (in_check c) || any is_critical (in_check c) = false -> texts (fun e => is_failure e || is_critical e) c = []) as Hnb.
  { intros H. apply texts_none. rewrite <- H, <- Hboth. apply any_ext. by intros []. }
  rewrite Hca. destruct (any is_critical (in_check c)) eqn:Ec.
  { (* critical *)
    rewrite orb_true_r in *.
    destruct (end_message_text md true st2) as (st3&->&Hs3&_&Ht3).
    { rewrite to_messages_crit, Ht2. cbn [t_mess]. intros E. apply app_eq_nil in E as [_ E].
      destruct md; destruct Hch as [Hch _]; rewrite Hch in E; revert E; first [by apply Hneb | by apply Hnec | by apply Hnef]. }
    cbn [rbind]. rewrite decrement_one by (by rewrite Hs3). eexists. split; [done|]. split; [done|].
    change (texts_of (mk_logger (res_of st3) [])) with (texts_of st3). rewrite Ht3, to_messages_crit, Ht2. cbn [t_mess t_diag t_caught].
    unfold check_messages, check_diagnostics, fails. rewrite Ec.
    destruct md; destruct Hch as [-> ->]; (rewrite ended_app by (first [by apply Hneb | by apply Hnec])); cbn; rewrite ?app_nil_r; done. }
  rewrite Hfa. destruct (any is_failure (in_check c)) eqn:Ef.
  - (* failure *)
    cbn [orb] in *.
    destruct (end_message_text md false st2) as (st3&->&Hs3&Hv3&Ht3).
    { rewrite Ht2. destruct md; destruct Hch as [-> ->]; cbn [to_messages t_mess t_diag]; intros E; apply app_eq_nil in E as [_ E]; revert E; first [by apply Hneb | by apply Hnec | by apply Hnef]. }
    cbn [rbind].
    assert (negb (failures (res_of st3) =? pf) = true) as Hf3.
    { rewrite (f_equal v_failures Hv3 : failures (res_of st3) = failures (res_of st2)). done. }
    assert (negb (critical_failures (res_of st3) =? pc) = false) as Hc3.
    { rewrite (f_equal v_critical Hv3 : critical_failures (res_of st3) = critical_failures (res_of st2)). done. }
    rewrite Hf3.
    assert (forall mode, mode <> FalseNegative -> exists st4, decrement_depth (log_top_level_failure mode [] st3) = Ok st4 /\
       stack st4 = [] /\ texts_of st4 = texts_of st3) as Hltf.
    { intros mode Hm. rewrite decrement_one.
      - eexists. split; [done|]. split; [done|]. by destruct mode.
      - unfold log_top_level_failure. cbn [stack]. rewrite Hs3. destruct (stack st2) as [|[a w] [|y l0]]; [done| |done]. done. }
    rewrite Ht2 in Ht3. unfold check_messages, check_diagnostics, fails. rewrite Ec, Ef.
    destruct md; destruct Hch as [Hch1 Hch2]; rewrite Hch1, Hch2 in Ht3; cbn [negb andb orb rbind]; cbn [to_messages t_mess t_diag t_caught] in Ht3.
    + destruct (Hltf Standard) as (st4&->&H1&H2); [done|]. eexists. split; [done|]. split; [done|].
      rewrite H2, Ht3, ended_app by (first [by apply Hneb | by apply Hnef]). done.
    + destruct (Hltf FalsePositive) as (st4&->&H1&H2); [done|]. eexists. split; [done|]. split; [done|].
      rewrite H2, Ht3, ended_app by (first [by apply Hneb | by apply Hnef]). done.
    + rewrite decrement_one by (by rewrite Hs3). eexists. split; [done|]. split; [done|].
      change (texts_of (mk_logger (res_of st3) [])) with (texts_of st3). rewrite Ht3, ended_app by (first [by apply Hneb | by apply Hnef]).
      rewrite Hnc by done. done.
  - (* no failure *)
    cbn [rbind orb] in *. rewrite Hfa, Hca. unfold check_messages, check_diagnostics, fails. rewrite Ec, Ef.
    assert (end_block (join [nl] (List.filter given [txt_false_negative; m])) 2 footer = no_failure c) as Enf by done.
    destruct md; destruct Hch as [Hch1 Hch2]; rewrite Hch1, Hch2 in Ht2; cbn [negb andb orb rbind].
    + rewrite decrement_one by done. eexists. split; [done|]. split; [done|].
      change (texts_of (mk_logger (res_of st2) [])) with (texts_of st2). rewrite Ht2, Hnb by done. done.
    + rewrite append_lines__spec, Htop. cbn [rbind]. rewrite decrement_one by done.
      eexists. split; [done|]. split; [done|]. rewrite Enf.
      transitivity (t_push false (no_failure c) (texts_of st2)); [unfold texts_of; cbn; by rewrite map_app|].
      rewrite Ht2, Hnb by done. unfold t_push. cbn [t_mess t_diag t_caught ended]. by rewrite !app_nil_r.
    + rewrite append_lines__spec, Htop. cbn [rbind]. rewrite decrement_one.
      2:{ unfold log_top_level_failure. cbn [stack]. destruct (stack st2) as [|[a w] [|y l0]]; [done| |done]. done. }
      eexists. split; [done|]. split; [done|]. rewrite Enf.
      transitivity (t_push true (no_failure c) (texts_of st2)); [unfold texts_of; cbn; by rewrite map_app|].
      rewrite Ht2, Hnc, Hnf by done. unfold t_push. cbn [t_mess t_diag t_caught ended]. by rewrite !app_nil_r.
Qed.

Lemma test_text md cs : forall st, stack st = [] -> exists st', run_events md (map (fun c => Scope (fst c) (snd c)) cs) st = Ok st' /\
  texts_of st' = mk_texts (t_mess (texts_of st) ++ concat (map (check_messages md) cs))
    (t_diag (texts_of st) ++ concat (map (check_diagnostics md) cs)) (t_caught (texts_of st) ++ concat (map check_caught cs)).
Proof.
  induction cs as [|[m es] cs IH]; intros st Hst.
  - exists st. cbn [map concat run_events]. rewrite !app_nil_r. split; [done|]. by destruct (texts_of st).
  - cbn [map run_events fst snd]. destruct (check_text md m es st Hst) as (st1&->&Hs1&Ht1). cbn [rbind].
    destruct (IH st1 Hs1) as (st2&->&Ht2). exists st2. split; [done|]. rewrite Ht2, Ht1. cbn [t_mess t_diag t_caught map concat]. by rewrite <- !app_assoc.
Qed.

Lemma run_test_text md cs st : run_test md cs = Ok st ->
  map snd (failure_messages (res_of st)) = concat (map (check_messages md) cs) /\
  map snd (diagnostics_output (res_of st)) = concat (map (check_diagnostics md) cs) /\
  map snd (caught_exception_messages (res_of st)) = concat (map check_caught cs).
Proof.
  unfold run_test. destruct (test_text md cs fresh eq_refl) as (st'&->&Ht). intros [= <-].
  split; [exact (f_equal t_mess Ht)|]. split; [exact (f_equal t_diag Ht)|]. exact (f_equal t_caught Ht).
Qed.

Lemma to_reduced_string_spec l : to_reduced_string l = printed (map snd l).
Proof.
  unfold to_reduced_string, printed. induction l as [|[i m] l IH]; [done|]. cbn [map concat snd List.filter]. rewrite IH.
  by destruct m.
Qed.

Lemma summary_text md cs st nm delta : run_test md cs = Ok st ->
  let s := summarize nm (res_of st) md delta in
  s_failure_messages s = printed (concat (map (check_messages md) cs)) /\
  s_diagnostics s = printed (concat (map (check_diagnostics md) cs)) /\
  s_caught s = printed (concat (map check_caught cs)).
Proof.
  intros H. destruct (run_test_text md cs st H) as (H1&H2&H3). cbn zeta.
  rewrite <- H1, <- H2, <- H3, <- !to_reduced_string_spec. by destruct md.
Qed.

(** ** Scopes are named once *)

Lemma named_seen l : forall seen n, n ∈ seen -> List.filter (fun b => bool_decide (n ∈ b)) (named seen l) = [].
Proof.
  induction l as [|[here e] l IH]; intros seen n Hn; [done|]. cbn [named]. destruct (failed e); [|by apply IH].
  cbn [List.filter]. rewrite bool_decide_eq_false_2; [apply IH; apply elem_of_app; by left|].
  rewrite elem_of_list_In, filter_In. intros [_ H]. by rewrite bool_decide_eq_true_2 in H.
Qed.

(** Scopes with a message either have one wherever they appear or nowhere: numbers are not used twice. *)
Definition consistent (l : list (list scope * event)) : Prop :=
  forall p q s t, p ∈ l -> q ∈ l -> s ∈ fst p -> t ∈ fst q -> fst s = fst t -> s = t.

Lemma named_once_gen l : consistent l -> forall seen n, n ∉ seen ->
  length (List.filter (fun b => bool_decide (n ∈ b)) (named seen l)) =
  if existsb (fun p => failed (snd p) && bool_decide (n ∈ map fst (headed (fst p)))) l then 1 else 0.
Proof.
  induction l as [|[here e] l IH]; intros Hc seen n Hn; [done|]. cbn [named existsb fst snd].
  assert (consistent l) as Hc'.
  { intros p q s t Hp Hq. apply Hc; by right. }
  destruct (failed e) eqn:Ee; cbn [andb orb]; [|by apply IH]. cbn [List.filter].
  destruct (decide (n ∈ map fst (headed here))) as [Hin|Hin].
  - rewrite (bool_decide_eq_true_2 (n ∈ map fst (headed here))) by done. cbn [orb].
    rewrite bool_decide_eq_true_2.
    2:{ rewrite elem_of_list_In, filter_In, <- elem_of_list_In. split; [done|]. by rewrite bool_decide_eq_false_2. }
    cbn [length]. rewrite named_seen; [done|]. apply elem_of_app. right.
    apply elem_of_list_fmap in Hin as (s&->&Hs). apply elem_of_list_fmap_1.
    apply elem_of_list_In, filter_In in Hs as [Hs _]. by apply elem_of_list_In.
  - rewrite (bool_decide_eq_false_2 (n ∈ map fst (headed here))) by done. cbn [orb].
    rewrite bool_decide_eq_false_2.
    2:{ rewrite elem_of_list_In, filter_In, <- elem_of_list_In. tauto. }
    destruct (decide (n ∈ map fst here)) as [Hn2|Hn2].
    + (* a scope without message *)
      rewrite named_seen by (apply elem_of_app; by right). cbn [length].
      replace (existsb _ l) with false; [done|]. symmetry. apply not_true_is_false. intros H.
      apply existsb_exists in H as ([here' e']&Hl&H). cbn [fst snd] in H. apply andb_true_iff in H as [_ H].
      apply bool_decide_eq_true in H. apply elem_of_list_fmap in H as (t&Et&Ht). apply elem_of_list_fmap in Hn2 as (s&Es&Hs).
      apply elem_of_list_In, filter_In in Ht as [Ht Hg].
      assert (s = t) as ->.
      { apply (Hc (here, e) (here', e')); [by left|right; by apply elem_of_list_In|done|by apply elem_of_list_In|congruence]. }
      apply Hin. apply elem_of_list_fmap. exists t. split; [done|]. apply elem_of_list_In, filter_In. split; [by apply elem_of_list_In|done].
    + rewrite IH; [done|done|]. rewrite elem_of_app. tauto.
Qed.

(** Positions of the scopes: each leaf has the scopes it was given and new ones, in between two numbers. *)
Definition fits (here : list scope) (n k : nat) (l : list (list scope * event)) : Prop :=
  n <= k /\ (forall p s, p ∈ l -> s ∈ fst p -> s ∈ here \/ n <= fst s < k) /\
  (forall p q s t, p ∈ l -> q ∈ l -> s ∈ fst p -> t ∈ fst q -> n <= fst s -> fst s = fst t -> s = t).

Lemma located_fits e : forall here n, below n (map fst here) -> fits here n (snd (located here n e)) (fst (located here n e)).
Proof.
  assert (forall here n e, below n (map fst here) -> fits here n n [(here, e)]) as Hleaf.
  { intros here n e' Hb. split; [done|]. split.
    - intros p s Hp Hs. apply elem_of_list_singleton in Hp as ->. by left.
    - intros p q s t Hp Hq Hs Ht Hle. apply elem_of_list_singleton in Hp as ->. exfalso.
      pose proof (proj1 (Forall_forall _ _) Hb (fst s) (elem_of_list_fmap_1 _ _ _ Hs)). cbn in *. lia. }
  induction e as [| | | | | |m es IH] using event_ind'; intros here n Hb; [by apply Hleaf..|].
  rewrite located_scope.
  assert (forall here0 n0, below n0 (map fst here0) ->
    fits here0 n0 (snd (located_all here0 n0 es)) (fst (located_all here0 n0 es))) as Hes.
  { clear -IH. intros here. induction IH as [|e es He _ IH]; intros n Hb.
    - split; [done|]. split; [intros p s Hp|intros p q s t Hp]; by apply elem_of_nil in Hp.
    - cbn [located_all]. pose proof (He here n Hb) as (H1&H2&H3). destruct (located here n e) as [l k]. cbn [fst snd] in *.
      pose proof (IH k (below_mono _ _ _ H1 Hb)) as (H4&H5&H6). destruct (located_all here k es) as [l' k']. cbn [fst snd] in *.
      assert (forall s, s ∈ here -> fst s < n) as Hh.
      { intros s Hs. exact (proj1 (Forall_forall _ _) Hb (fst s) (elem_of_list_fmap_1 _ _ _ Hs)). }
      split; [lia|]. split.
      + intros p s Hp Hs. apply elem_of_app in Hp as [Hp|Hp].
        * destruct (H2 p s Hp Hs); [by left|right; lia].
        * destruct (H5 p s Hp Hs); [by left|right; lia].
      + intros p q s t Hp Hq Hs Ht Hle E. apply elem_of_app in Hp as [Hp|Hp]; apply elem_of_app in Hq as [Hq|Hq].
        * by apply (H3 p q).
        * exfalso. destruct (H2 p s Hp Hs) as [Hx|Hx]; [apply Hh in Hx; lia|].
          destruct (H5 q t Hq Ht) as [Hy|Hy]; [apply Hh in Hy; lia|lia].
        * exfalso. destruct (H5 p s Hp Hs) as [Hx|Hx]; [apply Hh in Hx; lia|].
          destruct (H2 q t Hq Ht) as [Hy|Hy]; [apply Hh in Hy; lia|lia].
        * apply (H6 p q); [done..| |done]. destruct (H5 p s Hp Hs) as [Hx|Hx]; [apply Hh in Hx; lia|lia]. }
  assert (below (S n) (map fst (here ++ [(n, m)]))) as Hb'.
  { rewrite map_app. apply Forall_app. split; [eapply below_mono; [|done]; lia|]. apply Forall_singleton. cbn. lia. }
  pose proof (Hes _ _ Hb') as (H1&H2&H3). clear Hes IH Hleaf. unfold scope in *.
  destruct (located_all (here ++ [(n, m)]) (S n) es) as [l k]. cbn [fst snd] in *. split; [lia|]. split.
  - intros p s Hp Hs. destruct (H2 p s Hp Hs) as [Hx|Hx]; [|right; lia]. apply elem_of_app in Hx as [Hx|Hx]; [by left|].
    apply elem_of_list_singleton in Hx as ->. cbn. right. lia.
  - intros p q s t Hp Hq Hs Ht Hle E. destruct (decide (S n <= fst s)); [by apply (H3 p q)|].
    assert (fst s = n) as Esn by lia.
    assert (forall u, fst u = n -> u ∈ here ++ [(n, m)] \/ S n <= fst u < k -> u = (n, m)) as Hu.
    { intros u Eu [Hx|Hx]; [|lia]. apply elem_of_app in Hx as [Hx|Hx]; [|by apply elem_of_list_singleton in Hx].
      pose proof (proj1 (Forall_forall _ _) Hb (fst u) (elem_of_list_fmap_1 _ _ _ Hx)). cbn in *. lia. }
    rewrite (Hu s); [|done|by apply (H2 p)]. rewrite (Hu t); [done|congruence|by apply (H2 q)].
Qed.

Lemma located_in_consistent c : consistent (located_in c).
Proof.
  intros p q s t Hp Hq Hs Ht E. destruct (located_fits (Scope (fst c) (snd c)) [] 0 ltac:(by apply Forall_nil)) as (_&_&H).
  by apply (H p q); [..|lia|].
Qed.

Lemma named_once c n : length (List.filter (fun b => bool_decide (n ∈ b)) (named [] (located_in c))) =
  if existsb (fun p => failed (snd p) && bool_decide (n ∈ map fst (headed (fst p)))) (located_in c) then 1 else 0.
Proof. apply named_once_gen; [apply located_in_consistent|]. apply not_elem_of_nil. Qed.

(** ** Soft failures *)

Lemma soft_failures_sum s :
  soft_failures s = ((std_top_failures s + std_perf_failures s + fp_failures s + fp_perf_failures s +
    fn_failures s + fn_perf_failures s) mod 2 ^ 64)%Z.
Proof.
  assert (forall x y, add64 (x mod 2 ^ 64) y = ((x + y) mod 2 ^ 64))%Z as H by (intros x y; apply Zplus_mod_idemp_l).
  unfold soft_failures. change (add64 (std_top_failures s) (fn_failures s)) with ((std_top_failures s + fn_failures s) mod 2 ^ 64)%Z.
  rewrite !H.
  apply (f_equal (fun z => z mod 2 ^ 64)%Z). ring.
Qed.

Lemma filter_split {A} (p q : A -> bool) l :
  length (List.filter (fun x => p x && negb (q x)) l) + length (List.filter (fun x => p x && q x) l) = length (List.filter p l).
Proof. induction l as [|x l IH]; [done|]. cbn [List.filter]. destruct (p x), (q x); cbn [andb negb length]; lia. Qed.

Lemma filter_le {A} (p : A -> bool) l : length (List.filter p l) <= length l.
Proof. induction l as [|x l IH]; [done|]. cbn [List.filter]. destruct (p x); cbn [length]; lia. Qed.

Lemma soft_failures_counted md cs st nm delta : run_test md cs = Ok st -> Forall perf_alone cs ->
  (Z.of_nat (length cs) < 2 ^ 64)%Z -> (Z.of_nat (length (in_test cs)) < 2 ^ 64)%Z ->
  soft_failures (summarize nm (res_of st) md delta) = Z.of_nat (length (List.filter (fails md) cs)).
Proof.
  intros H1 H2 H3 H4. pose proof (summary_spec md cs st nm delta H1 H2 H3 H4) as E. cbv zeta in E.
  set (s := summarize nm (res_of st) md delta) in *. rewrite soft_failures_sum.
  pose proof (filter_split (fails md) perf_check_in cs) as Hsp.
  pose proof (filter_le (fails md) cs) as Hle.
  clearbody s. unfold counters in E. destruct md; cbn [app] in E; injection E; clear E; intros;
    rewrite Z.mod_small; lia.
Qed.
