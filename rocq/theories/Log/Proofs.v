(** Proofs about the logger. *)
From Coq Require Import ZArith.
From stdpp Require Import list.
From Verif.Base Require Import Outcome ListLemmas.
From Verif.Text Require Import Model Spec Proofs ProofsCase ProofsIndent.
From Verif.Log Require Import Model Spec.
Local Open Scope res_scope.

Section event_ind.
  Variable P : event -> Prop.
  Hypothesis H1 : P Check.
  Hypothesis H2 : P PerfCheck.
  Hypothesis H3 : forall m, P (Fail m).
  Hypothesis H4 : forall m, P (PerfFail m).
  Hypothesis H5 : forall m, P (Critical m).
  Hypothesis H6 : forall m, P (Caught m).
  Hypothesis H7 : forall m es, Forall P es -> P (Scope m es).
  Fixpoint event_ind' (e : event) : P e :=
    match e with
    | Check => H1 | PerfCheck => H2 | Fail m => H3 m | PerfFail m => H4 m | Critical m => H5 m | Caught m => H6 m
    | Scope m es => H7 m es ((fix go es : Forall P es :=
        match es with [] => List.Forall_nil P | e :: es' => List.Forall_cons P e es' (event_ind' e) (go es') end) es)
    end.
End event_ind.

(** The inner loop of [run_event] is [run_events]. *)
Lemma run_event_scope md m es st :
  run_event md (Scope m es) st =
  (let? st2 := run_events md es (snd (open_sentinel m st)) in close_sentinel md (fst (open_sentinel m st)) st2).
Proof.
  cbn [run_event]. destruct (open_sentinel m st) as [s st1]. cbn [fst snd]. f_equal.
  revert st1. induction es as [|e es IH]; intros st1; [done|]. cbn [run_events].
  destruct (run_event md e st1); cbn [rbind]; [apply IH|done..].
Qed.

(** ** Messages can always be made *)

Lemma indent__ok sv ind : exists t, indent_ sv ind = Ok t.
Proof. unfold indent_. rewrite indent_spec by lia. eauto. Qed.

Lemma append_indented__ok s sv ind : exists t, append_indented_ s sv ind = Ok t.
Proof. unfold append_indented_. rewrite append_indented_spec by lia. eauto. Qed.

Lemma append_lines__ok s ss : exists t, append_lines_ s ss = Ok t.
Proof.
  unfold append_lines_. rewrite append_lines_spec; [eauto|].
  pose proof (proj1 (list_max_le (map length ss) (list_max (map length ss))) (le_n _)) as H.
  rewrite List.Forall_forall in H. apply Forall_forall. intros x Hx.
  specialize (H (length x)). apply elem_of_list_In in Hx. specialize (H (in_map _ _ _ Hx)). lia.
Qed.

Lemma build_ok msg t ind : exists r, build msg t ind = Ok r.
Proof. unfold build. destruct msg; [apply indent__ok|apply append_indented__ok]. Qed.

Lemma write_levels_ok ls : forall ind active msg, exists msg' ind' ls',
  write_levels ls ind active msg = Ok (msg', ind', ls') /\ length ls' = length ls.
Proof.
  induction ls as [|[m w] ls IH]; intros ind active msg; cbn [write_levels]; [eauto|].
  destruct m as [|c m].
  - destruct (IH ind active msg) as (a&b&l&->&Hl). cbn [rbind]. do 3 eexists. split; [done|]. simpl. lia.
  - destruct w.
    + edestruct IH as (a&b&l&->&Hl). cbn [rbind]. do 3 eexists. split; [done|]. simpl. lia.
    + edestruct build_ok as [r ->]. cbn [rbind].
      edestruct IH as (a&b&l&->&Hl). cbn [rbind]. do 3 eexists. split; [done|]. simpl. lia.
Qed.

(** ** The observable part of the state *)

Record view := mk_view {
  v_failures : nat; v_top_failures : nat; v_perf_failures : nat; v_critical : nat;
  v_top_checks : nat; v_deep : nat; v_perf : nat;
  v_messages : list nat; v_diag : list nat; v_caught : list nat
}.

Definition view_of (st : logger) : view :=
  let r := res_of st in
  mk_view (failures r) (top_level_failures r) (performance_failures r) (critical_failures r)
    (top_level_checks r) (deep_checks r) (performance_checks r)
    (map fst (failure_messages r)) (map fst (diagnostics_output r)) (map fst (caught_exception_messages r)).

Definition v_push (tomsg : bool) (v : view) : view :=
  if tomsg then
    mk_view (v_failures v) (v_top_failures v) (v_perf_failures v) (v_critical v) (v_top_checks v) (v_deep v) (v_perf v)
      (v_messages v ++ [v_top_checks v]) (v_diag v) (v_caught v)
  else
    mk_view (v_failures v) (v_top_failures v) (v_perf_failures v) (v_critical v) (v_top_checks v) (v_deep v) (v_perf v)
      (v_messages v) (v_diag v ++ [v_top_checks v]) (v_caught v).

Definition v_step (md : mode) (e : event) (v : view) : view :=
  match e with
  | Check => mk_view (v_failures v) (v_top_failures v) (v_perf_failures v) (v_critical v) (v_top_checks v)
               (S (v_deep v)) (v_perf v) (v_messages v) (v_diag v) (v_caught v)
  | PerfCheck => mk_view (v_failures v) (v_top_failures v) (v_perf_failures v) (v_critical v) (v_top_checks v)
               (S (v_deep v)) (S (v_perf v)) (v_messages v) (v_diag v) (v_caught v)
  | Fail _ => v_push (to_messages md false)
      (mk_view (S (v_failures v)) (v_top_failures v) (v_perf_failures v) (v_critical v) (v_top_checks v)
               (v_deep v) (v_perf v) (v_messages v) (v_diag v) (v_caught v))
  | PerfFail _ => v_push (to_messages md false)
      (mk_view (S (v_failures v)) (v_top_failures v) (S (v_perf_failures v)) (v_critical v) (v_top_checks v)
               (v_deep v) (v_perf v) (v_messages v) (v_diag v) (v_caught v))
  | Critical _ => v_push true
      (mk_view (v_failures v) (v_top_failures v) (v_perf_failures v) (S (v_critical v)) (v_top_checks v)
               (v_deep v) (v_perf v) (v_messages v) (v_diag v) (v_caught v))
  | Caught _ => mk_view (v_failures v) (v_top_failures v) (v_perf_failures v) (v_critical v) (v_top_checks v)
               (v_deep v) (v_perf v) (v_messages v) (v_diag v) (v_caught v ++ [v_top_checks v])
  | Scope _ _ => v
  end.

Definition v_run (md : mode) (l : list event) (v : view) : view := fold_left (fun v e => v_step md e v) l v.

Lemma v_run_app md l1 l2 v : v_run md (l1 ++ l2) v = v_run md l2 (v_run md l1 v).
Proof. apply fold_left_app. Qed.

Lemma failure_message_ok md m crit st : exists st', failure_message md m crit st = Ok st' /\
  length (stack st') = length (stack st) /\ view_of st' = v_push (to_messages md crit) (view_of st).
Proof.
  unfold failure_message. destruct (write_levels_ok (stack st) [] 0 []) as (a&b&l&->&Hl). cbn [rbind].
  destruct (build_ok a m b) as [r ->]. cbn [rbind]. eexists. split; [done|]. split; [done|].
  unfold view_of, push_channel, v_push. cbn [res_of]. destruct (to_messages md crit); cbn; by rewrite map_app.
Qed.

Lemma to_messages_crit md : to_messages md true = true.
Proof. by destruct md. Qed.

(** Within an open check. *)
Lemma run_inner md e : forall st, stack st <> [] -> exists st', run_event md e st = Ok st' /\
  length (stack st') = length (stack st) /\ view_of st' = v_run md (leaves e) (view_of st).
Proof.
  assert (forall m crit st r, with_results st r = st \/ True -> exists st', failure_message md m crit (with_results st r) = Ok st' /\
    length (stack st') = length (stack st) /\ view_of st' = v_push (to_messages md crit) (view_of (with_results st r))) as Hfm.
  { intros m crit st r _. destruct (failure_message_ok md m crit (with_results st r)) as (st'&E&H1&H2). eauto. }
  induction e as [| | | | | |m es IH] using event_ind'; intros st Hst.
  - eexists. split; [done|]. done.
  - eexists. split; [done|]. done.
  - cbn [run_event]. unfold log_failure. edestruct Hfm as (st'&->&H1&H2); [by right|]. eexists. split; [done|]. split; [done|].
    rewrite H2. done.
  - cbn [run_event]. unfold log_performance_failure, log_failure. edestruct Hfm as (st'&->&H1&H2); [by right|].
    eexists. split; [done|]. split; [done|]. rewrite H2. done.
  - cbn [run_event]. unfold log_critical_failure. edestruct Hfm as (st'&->&H1&H2); [by right|]. eexists. split; [done|]. split; [done|].
    rewrite H2, to_messages_crit. done.
  - eexists. split; [done|]. split; [done|]. unfold view_of, log_caught_exception_message. cbn. by rewrite map_app.
  - rewrite run_event_scope.
    assert (forall st1, stack st1 <> [] -> exists st2, run_events md es st1 = Ok st2 /\
      length (stack st2) = length (stack st1) /\ view_of st2 = v_run md (concat (map leaves es)) (view_of st1)) as Hes.
    { clear Hst st. induction IH as [|e es He _ IH]; intros st1 Hst1; [by exists st1|]. cbn [run_events].
      destruct (He st1 Hst1) as (st2&->&Hl&Hv). cbn [rbind].
      destruct (IH st2) as (st3&->&Hl3&Hv3); [by destruct (stack st1), (stack st2)|].
      exists st3. split; [done|]. split; [lia|]. cbn [map concat]. rewrite v_run_app, <- Hv. done. }
    unfold open_sentinel. cbn [fst snd]. destruct (stack st) as [|x xs] eqn:Es; [done|].
    destruct (Hes (increment_depth m st)) as (st2&->&Hl&Hv).
    { cbn. rewrite Es. done. }
    cbn [rbind]. unfold close_sentinel.
    cbn [increment_depth stack] in Hl. rewrite app_length, Es in Hl. cbn [length] in Hl.
    rewrite decide_False by lia. cbn [rbind]. unfold decrement_depth.
    destruct (stack st2) as [|y ys] eqn:Ey; [simpl in Hl; lia|].
    eexists. split; [done|]. split.
    + cbn [stack]. rewrite take_length. rewrite Hl. cbn [length]. lia.
    + exact Hv.
Qed.

Lemma run_inners md es : forall st, stack st <> [] -> exists st', run_events md es st = Ok st' /\
  length (stack st') = length (stack st) /\ view_of st' = v_run md (concat (map leaves es)) (view_of st).
Proof.
  induction es as [|e es IH]; intros st Hst; [by exists st|]. cbn [run_events].
  destruct (run_inner md e st Hst) as (st2&->&Hl&Hv). cbn [rbind].
  destruct (IH st2) as (st3&->&Hl3&Hv3); [by destruct (stack st), (stack st2)|].
  exists st3. split; [done|]. split; [lia|]. cbn [map concat]. rewrite v_run_app, <- Hv. done.
Qed.

(** ** What a run of leaves does to the view *)

Lemma count_cons p e l : count p (e :: l) = (if p e then 1 else 0) + count p l.
Proof. unfold count. cbn [List.filter]. destruct (p e); done. Qed.

Lemma count_app p l1 l2 : count p (l1 ++ l2) = count p l1 + count p l2.
Proof. unfold count. by rewrite List.filter_app, app_length. Qed.

Lemma any_count p l : any p l = negb (count p l =? 0).
Proof.
  induction l as [|e l IH]; [done|]. unfold any in *. cbn [existsb]. rewrite IH, count_cons. by destruct (p e).
Qed.

Definition in_messages (md : mode) (e : event) : bool :=
  match md with FalseNegative => is_critical e | _ => is_failure e || is_critical e end.
Definition in_diag (md : mode) (e : event) : bool :=
  match md with FalseNegative => is_failure e | _ => false end.

Lemma repeat_snoc' {A} (x : A) n l : (l ++ [x]) ++ repeat x n = l ++ repeat x (S n).
Proof. by rewrite <- app_assoc. Qed.

Lemma v_run_spec md ls : Forall (fun e => match e with Scope _ _ => False | _ => True end) ls -> forall v,
  v_run md ls v =
  mk_view (v_failures v + count is_failure ls) (v_top_failures v) (v_perf_failures v + count is_perf_failure ls)
    (v_critical v + count is_critical ls) (v_top_checks v) (v_deep v + count is_check ls)
    (v_perf v + count is_perf_check ls)
    (v_messages v ++ repeat (v_top_checks v) (count (in_messages md) ls))
    (v_diag v ++ repeat (v_top_checks v) (count (in_diag md) ls))
    (v_caught v ++ repeat (v_top_checks v) (count is_caught ls)).
Proof.
  induction 1 as [|e ls He _ IH]; intros v.
  - destruct v. unfold count. cbn. by rewrite !Nat.add_0_r, !app_nil_r.
  - change (v_run md (e :: ls) v) with (v_run md ls (v_step md e v)). rewrite IH, !count_cons.
    destruct e; [..|done]; destruct md; cbn; rewrite ?repeat_snoc'; f_equal; try lia; try done.
Qed.

Lemma leaves_flat e : Forall (fun e => match e with Scope _ _ => False | _ => True end) (leaves e).
Proof.
  induction e as [| | | | | |m es IH] using event_ind'; cbn [leaves]; [repeat constructor..|].
  apply Forall_concat, Forall_map. done.
Qed.

Lemma in_check_flat c : Forall (fun e => match e with Scope _ _ => False | _ => True end) (in_check c).
Proof. apply Forall_concat, Forall_map, Forall_forall. intros e _. apply leaves_flat. Qed.

(** ** Outermost checks *)

Lemma end_last_ok l : l <> [] -> exists l', end_last l = Ok l' /\ map fst l' = map fst l.
Proof.
  intros H. destruct l as [|x l _] using rev_ind; [done|].
  unfold end_last. rewrite last_snoc. destruct x as [i m]. eexists. split; [done|].
  rewrite !map_app. rewrite app_length. simpl. replace (length l + 1 - 1) with (length l) by lia. by rewrite take_app.
Qed.

Lemma end_message_ok md crit st :
  (if to_messages md crit then v_messages (view_of st) else v_diag (view_of st)) <> [] ->
  exists st', end_message md crit st = Ok st' /\ stack st' = stack st /\ view_of st' = view_of st.
Proof.
  intros H. unfold end_message. destruct (to_messages md crit).
  - destruct (end_last_ok (failure_messages (res_of st))) as (l&->&Hl).
    { intros E. apply H. unfold view_of. cbn. by rewrite E. }
    eexists. split; [done|]. split; [done|]. unfold view_of. cbn. by rewrite Hl.
  - destruct (end_last_ok (diagnostics_output (res_of st))) as (l&->&Hl).
    { intros E. apply H. unfold view_of. cbn. by rewrite E. }
    eexists. split; [done|]. split; [done|]. unfold view_of. cbn. by rewrite Hl.
Qed.

Definition v_check (md : mode) (c : text * list event) (v : view) : view :=
  let k := S (v_top_checks v) in let ls := in_check c in
  mk_view (v_failures v + count is_failure ls) (v_top_failures v + (if fails md c then 1 else 0))
    (v_perf_failures v + count is_perf_failure ls)
    (v_critical v + count is_critical ls) k (v_deep v + count is_check ls) (v_perf v + count is_perf_check ls)
    (v_messages v ++ repeat k (message_entries md c))
    (v_diag v ++ repeat k (diagnostics_entries md c))
    (v_caught v ++ repeat k (count is_caught ls)).

Lemma decrement_one st : length (stack st) = 1 -> decrement_depth st = Ok (mk_logger (res_of st) []).
Proof. intros H. unfold decrement_depth. destruct (stack st) as [|x [|y l]]; [done| |done]. done. Qed.

Lemma count_pos p l : any p l = true -> exists n, count p l = S n.
Proof. rewrite any_count. destruct (count p l); [done|eauto]. Qed.

Lemma count_none p l : any p l = false -> count p l = 0.
Proof. rewrite any_count. by destruct (count p l). Qed.

Lemma count_or l : count (fun e => is_failure e || is_critical e) l = count is_failure l + count is_critical l.
Proof. induction l as [|e l IH]; [done|]. rewrite !count_cons, IH. destruct e; cbn; lia. Qed.

Lemma in_messages_eq md l : count (in_messages md) l =
  match md with FalseNegative => count is_critical l | _ => count is_failure l + count is_critical l end.
Proof. destruct md; cbn [in_messages]; rewrite <- ?count_or; done. Qed.

Lemma in_diag_eq md l : count (in_diag md) l = match md with FalseNegative => count is_failure l | _ => 0 end.
Proof. destruct md; [..|done]; unfold count; cbn; induction l; done. Qed.

Lemma app_repeat_ne (l : list nat) k n : l ++ repeat k (S n) <> [].
Proof. destruct l; done. Qed.

Lemma run_check md m es st : stack st = [] -> exists st', run_event md (Scope m es) st = Ok st' /\
  stack st' = [] /\ view_of st' = v_check md (m, es) (view_of st).
Proof.
  intros Hst. rewrite run_event_scope. unfold open_sentinel. rewrite Hst. cbn [fst snd].
  set (st1 := increment_depth m (log_top_level_check st)).
  destruct (run_inners md es st1) as (st2&->&Hl&Hv).
  { unfold st1. cbn. rewrite Hst. done. }
  cbn [rbind]. assert (length (stack st2) = 1) as Hl1.
  { rewrite Hl. unfold st1. cbn. by rewrite Hst. }
  change (concat (map leaves es)) with (in_check (m, es)) in Hv.
  rewrite (v_run_spec md _ (in_check_flat (m, es))), in_messages_eq, in_diag_eq in Hv.
  set (c := (m, es)) in *.
  unfold close_sentinel. rewrite decide_True by done. cbn [prior_failures prior_critical].
  set (pf := failures (res_of st)) in *. set (pc := critical_failures (res_of st)) in *.
  assert (critical_failures (res_of st2) = pc + count is_critical (in_check c)) as Hcrit by exact (f_equal v_critical Hv).
  assert (failures (res_of st2) = pf + count is_failure (in_check c)) as Hfail by exact (f_equal v_failures Hv).
  assert (negb (critical_failures (res_of st2) =? pc) = any is_critical (in_check c)) as Hca.
  { rewrite any_count, Hcrit. f_equal. lia. }
  assert (negb (failures (res_of st2) =? pf) = any is_failure (in_check c)) as Hfa.
  { rewrite any_count, Hfail. f_equal. lia. }
  rewrite Hca. destruct (any is_critical (in_check c)) eqn:Ec.
  { (* critical *)
    destruct (end_message_ok md true st2) as (st3&->&Hs3&Hv3).
    { rewrite to_messages_crit, Hv. cbn [v_messages]. destruct (count_pos _ _ Ec) as [n En].
      destruct md; rewrite ?En, ?Nat.add_succ_r; apply app_repeat_ne. }
    cbn [rbind]. rewrite decrement_one by (by rewrite Hs3).
    eexists. split; [done|]. split; [done|].
    change (view_of (mk_logger (res_of st3) [])) with (view_of st3). rewrite Hv3, Hv. unfold v_check, message_entries, diagnostics_entries, fails.
    rewrite count_or, Ec. cbn. destruct md; cbn; rewrite ?Nat.add_0_r; done. }
  rewrite Hfa. destruct (any is_failure (in_check c)) eqn:Ef.
  - (* failure *)
    destruct (end_message_ok md false st2) as (st3&->&Hs3&Hv3).
    { rewrite Hv. destruct (count_pos _ _ Ef) as [n En].
      destruct md; cbn [to_messages v_messages v_diag]; rewrite ?En; apply app_repeat_ne. }
    cbn [rbind].
    assert (negb (failures (res_of st3) =? pf) = true) as Hf3.
    { rewrite (f_equal v_failures Hv3 : failures (res_of st3) = failures (res_of st2)). done. }
    assert (negb (critical_failures (res_of st3) =? pc) = false) as Hc3.
    { rewrite (f_equal v_critical Hv3 : critical_failures (res_of st3) = critical_failures (res_of st2)). done. }
    rewrite Hf3.
    assert (forall mode, mode <> FalseNegative -> exists st4, decrement_depth (log_top_level_failure mode [] st3) = Ok st4 /\
       stack st4 = [] /\ view_of st4 =
       mk_view (v_failures (view_of st3)) (S (v_top_failures (view_of st3))) (v_perf_failures (view_of st3))
         (v_critical (view_of st3)) (v_top_checks (view_of st3)) (v_deep (view_of st3)) (v_perf (view_of st3))
         (v_messages (view_of st3)) (v_diag (view_of st3)) (v_caught (view_of st3))) as Hltf.
    { intros mode Hm. rewrite decrement_one.
      - eexists. split; [done|]. split; [done|]. by destruct mode.
      - unfold log_top_level_failure. cbn [stack]. rewrite Hs3. destruct (stack st2) as [|[a w] [|y l]]; [done| |done]. done. }
    unfold v_check, message_entries, diagnostics_entries, fails. rewrite count_or, Ec, Ef.
    destruct md; cbn [negb andb rbind].
    + destruct (Hltf Standard) as (st4&->&H1&H2); [done|]. eexists. split; [done|]. split; [done|].
      rewrite H2, Hv3, Hv. cbn. rewrite Nat.add_1_r. done.
    + destruct (Hltf FalsePositive) as (st4&->&H1&H2); [done|]. eexists. split; [done|]. split; [done|].
      rewrite H2, Hv3, Hv. cbn. rewrite Nat.add_1_r. done.
    + rewrite decrement_one by (by rewrite Hs3). eexists. split; [done|]. split; [done|].
      change (view_of (mk_logger (res_of st3) [])) with (view_of st3). rewrite Hv3, Hv. cbn. rewrite !Nat.add_0_r. done.
  - (* no failure *)
    cbn [rbind]. rewrite Hfa, Hca.
    unfold v_check, message_entries, diagnostics_entries, fails. rewrite count_or, Ec, Ef.
    destruct md; cbn [negb andb rbind].
    + rewrite decrement_one by done. eexists. split; [done|]. split; [done|].
      change (view_of (mk_logger (res_of st2) [])) with (view_of st2). rewrite Hv. cbn. rewrite Nat.add_0_r. done.
    + edestruct append_lines__ok as [t ->]. cbn [rbind]. rewrite decrement_one by done.
      eexists. split; [done|]. split; [done|].
      set (e := (top_level_checks (res_of st2), end_block t 2 footer)).
      assert (view_of (mk_logger (res_of (with_results st2 (push_channel false e (res_of st2)))) []) = v_push false (view_of st2)) as ->.
      { unfold view_of, v_push. cbn. by rewrite map_app. }
      rewrite Hv. cbn. rewrite Nat.add_0_r.
      cbn. by rewrite app_nil_r.
    + edestruct append_lines__ok as [t ->]. cbn [rbind].
      rewrite decrement_one.
      * eexists. split; [done|]. split; [done|].
        set (e := end_block t 2 footer).
        assert (view_of (mk_logger (res_of (log_top_level_failure FalseNegative e st2)) []) =
          mk_view (v_failures (view_of st2)) (S (v_top_failures (view_of st2))) (v_perf_failures (view_of st2))
           (v_critical (view_of st2)) (v_top_checks (view_of st2)) (v_deep (view_of st2)) (v_perf (view_of st2))
           (v_messages (view_of st2) ++ [v_top_checks (view_of st2)]) (v_diag (view_of st2)) (v_caught (view_of st2))) as ->.
        { unfold view_of, log_top_level_failure. cbn. by rewrite map_app. }
        rewrite Hv, (count_none _ _ Ec). cbn. rewrite !Nat.add_1_r. by rewrite app_nil_r.
      * unfold log_top_level_failure. cbn [stack]. destruct (stack st2) as [|[a w] [|y l]]; [done| |done]. done.
Qed.

(** ** Tests *)

Definition v_zero : view := mk_view 0 0 0 0 0 0 0 [] [] [].

Fixpoint v_checks (md : mode) (cs : list (text * list event)) (v : view) : view :=
  match cs with
  | [] => v
  | c :: cs' => v_checks md cs' (v_check md c v)
  end.

Lemma run_checks md cs : forall st, stack st = [] ->
  exists st', run_events md (map (fun c => Scope (fst c) (snd c)) cs) st = Ok st' /\ stack st' = [] /\
    view_of st' = v_checks md cs (view_of st).
Proof.
  induction cs as [|[m es] cs IH]; intros st Hst; [by exists st|]. cbn [map run_events fst snd].
  destruct (run_check md m es st Hst) as (st1&->&H1&H2). cbn [rbind].
  destruct (IH st1 H1) as (st2&->&H3&H4). exists st2. split; [done|]. split; [done|].
  rewrite H4, H2. done.
Qed.

Definition labels_from (i : nat) (n : text * list event -> nat) (cs : list (text * list event)) : list nat :=
  concat (imap (fun k c => repeat (S (i + k)) (n c)) cs).

Lemma labels_from_cons i n c cs : labels_from i n (c :: cs) = repeat (S i) (n c) ++ labels_from (S i) n cs.
Proof.
  unfold labels_from. cbn [imap concat]. rewrite Nat.add_0_r. f_equal. f_equal.
  apply imap_ext. intros k x _. cbn. f_equal. lia.
Qed.

Lemma v_checks_spec md cs : forall v,
  v_checks md cs v =
  mk_view (v_failures v + count is_failure (in_test cs)) (v_top_failures v + length (List.filter (fails md) cs))
    (v_perf_failures v + count is_perf_failure (in_test cs)) (v_critical v + count is_critical (in_test cs))
    (v_top_checks v + length cs) (v_deep v + count is_check (in_test cs)) (v_perf v + count is_perf_check (in_test cs))
    (v_messages v ++ labels_from (v_top_checks v) (message_entries md) cs)
    (v_diag v ++ labels_from (v_top_checks v) (diagnostics_entries md) cs)
    (v_caught v ++ labels_from (v_top_checks v) (fun c => count is_caught (in_check c)) cs).
Proof.
  induction cs as [|c cs IH]; intros v.
  - destruct v. unfold labels_from. cbn. by rewrite !Nat.add_0_r, !app_nil_r.
  - cbn [v_checks]. rewrite IH. unfold in_test. cbn [map concat]. rewrite !count_app. fold (in_test cs).
    rewrite !labels_from_cons. unfold v_check.
    cbn [v_failures v_top_failures v_perf_failures v_critical v_top_checks v_deep v_perf v_messages v_diag v_caught List.filter length].
    rewrite <- !app_assoc. f_equal; try lia. destruct (fails md c); cbn [length]; lia.
Qed.

Lemma run_test_spec md cs : exists st, run_test md cs = Ok st /\ stack st = [] /\
  let r := res_of st in let ls := in_test cs in
  top_level_checks r = length cs /\
  top_level_failures r = length (List.filter (fails md) cs) /\
  critical_failures r = count is_critical ls /\
  failures r = count is_failure ls /\ performance_failures r = count is_perf_failure ls /\
  deep_checks r = count is_check ls /\ performance_checks r = count is_perf_check ls /\
  map fst (failure_messages r) = labels (message_entries md) cs /\
  map fst (diagnostics_output r) = labels (diagnostics_entries md) cs /\
  map fst (caught_exception_messages r) = labels (fun c => count is_caught (in_check c)) cs.
Proof.
  unfold run_test. destruct (run_checks md cs fresh eq_refl) as (st&E&Hs&Hv). exists st.
  split; [done|]. split; [done|]. rewrite v_checks_spec in Hv.
  repeat split.
  - exact (f_equal v_top_checks Hv).
  - exact (f_equal v_top_failures Hv).
  - exact (f_equal v_critical Hv).
  - exact (f_equal v_failures Hv).
  - exact (f_equal v_perf_failures Hv).
  - exact (f_equal v_deep Hv).
  - exact (f_equal v_perf Hv).
  - exact (f_equal v_messages Hv).
  - exact (f_equal v_diag Hv).
  - exact (f_equal v_caught Hv).
Qed.

(** ** Summaries of tests *)

Lemma sub64_exact a b : (b <= a)%nat -> (Z.of_nat a < 2 ^ 64)%Z -> sub64 (Z.of_nat a) (Z.of_nat b) = Z.of_nat (a - b).
Proof. intros H1 H2. unfold sub64. rewrite Z.mod_small; lia. Qed.

Definition perf_check_in (c : text * list event) : bool := any is_perf_check (in_check c).

Lemma perf_alone_count cs : Forall perf_alone cs ->
  count is_perf_check (in_test cs) = length (List.filter perf_check_in cs).
Proof.
  induction 1 as [|c cs Hc _ IH]; [done|]. unfold in_test. cbn [map concat List.filter]. rewrite count_app. fold (in_test cs).
  rewrite IH. unfold perf_check_in at 2. rewrite any_count.
  destruct Hc as [[-> _]|[-> _]]; cbn; done.
Qed.

Lemma filter_split {A} (p q : A -> bool) l :
  length (List.filter q l) = length (List.filter (fun x => q x && p x) l) + length (List.filter (fun x => q x && negb (p x)) l).
Proof. induction l as [|x l IH]; [done|]. cbn [List.filter]. destruct (q x), (p x); cbn; lia. Qed.

(** The performance failures are the failing checks among the performance checks. *)
Lemma perf_failures_std md cs : md <> FalseNegative -> Forall perf_alone cs ->
  count is_perf_failure (in_test cs) = length (List.filter (fun c => fails md c && perf_check_in c) cs).
Proof.
  intros Hm. induction 1 as [|c cs Hc _ IH]; [done|]. unfold in_test. cbn [map concat List.filter]. rewrite count_app. fold (in_test cs).
  rewrite IH. unfold perf_check_in at 2. unfold fails at 2. rewrite !any_count.
  destruct Hc as [[-> ->]|(->&_&->&Hle&Hcr)].
  - cbn. rewrite andb_false_r. done.
  - rewrite any_count in Hcr. rewrite Hcr. cbn [negb andb].
    destruct (count is_perf_failure (in_check c)) as [|[|n]]; [| |lia]; destruct md; done.
Qed.

Lemma perf_failures_fn cs : Forall perf_alone cs ->
  count is_perf_check (in_test cs) = count is_perf_failure (in_test cs) +
    length (List.filter (fun c => fails FalseNegative c && perf_check_in c) cs).
Proof.
  induction 1 as [|c cs Hc _ IH]; [done|]. unfold in_test. cbn [map concat List.filter]. rewrite !count_app. fold (in_test cs).
  rewrite IH. unfold perf_check_in at 2. unfold fails at 2. rewrite !any_count.
  destruct Hc as [[-> ->]|(->&_&->&Hle&Hcr)].
  - cbn. rewrite andb_false_r. done.
  - rewrite any_count in Hcr. rewrite Hcr. cbn [negb andb].
    destruct (count is_perf_failure (in_check c)) as [|[|n]]; [| |lia]; cbn; lia.
Qed.

Lemma count_le p q l : (forall e, p e = true -> q e = true) -> count p l <= count q l.
Proof.
  intros H. induction l as [|e l IH]; [done|]. rewrite !count_cons. specialize (H e).
  destruct (p e), (q e); try lia.
Qed.

Lemma count_minus p q l : (forall e, p e = true -> q e = true) ->
  count q l - count p l = count (fun e => q e && negb (p e)) l.
Proof.
  intros H. induction l as [|e l IH]; [done|]. rewrite !count_cons. pose proof (H e) as He. pose proof (count_le p q l H).
  destruct (p e), (q e); cbn; lia.
Qed.

Lemma filter_length_le {A} (p : A -> bool) l : length (List.filter p l) <= length l.
Proof. induction l as [|x l IH]; [done|]. cbn. destruct (p x); cbn; lia. Qed.

Lemma filter_count (q p : text * list event -> bool) cs :
  length (List.filter q cs) - length (List.filter (fun c => q c && p c) cs) =
  length (List.filter (fun c => q c && negb (p c)) cs).
Proof. rewrite (filter_split p q cs). lia. Qed.

Lemma summary_spec md cs st nm delta : run_test md cs = Ok st -> Forall perf_alone cs ->
  (Z.of_nat (length cs) < 2 ^ 64)%Z -> (Z.of_nat (length (in_test cs)) < 2 ^ 64)%Z ->
  let s := summarize nm (res_of st) md delta in
  let z := Z.of_nat in
  let others := fun c => negb (perf_check_in c) in
  let checks := z (length (List.filter others cs)) in
  let perf_checks := z (length (List.filter perf_check_in cs)) in
  let failing := z (length (List.filter (fun c => fails md c && others c) cs)) in
  let perf_failing := z (length (List.filter (fun c => fails md c && perf_check_in c) cs)) in
  counters s =
  (match md with
   | Standard =>
      [checks; z (count (fun e => is_check e && negb (is_perf_check e)) (in_test cs)); perf_checks; 0; 0; 0; 0;
       failing; z (count (fun e => is_failure e && negb (is_perf_failure e)) (in_test cs)); perf_failing; 0; 0; 0; 0]
   | FalsePositive => [0; 0; 0; checks; 0; perf_checks; 0; 0; 0; 0; failing; 0; perf_failing; 0]
   | FalseNegative => [0; 0; 0; 0; checks; 0; perf_checks; 0; 0; 0; 0; failing; 0; perf_failing]
   end ++ [z (count is_critical (in_test cs))])%Z.
Proof.
  intros E HF Hb1 Hb2. destruct (run_test_spec md cs) as (st'&E'&_&H). rewrite E' in E. injection E as ->.
  cbn zeta in H. destruct H as (Htc&Htf&Hcf&Hf&Hpf&Hdc&Hpc&_).
  pose proof (perf_alone_count cs HF) as Hn1.
  assert (forall p : event -> bool, count p (in_test cs) <= length (in_test cs)) as Hcl by (intros p; apply filter_length_le).
  assert (forall p, length (List.filter p cs) <= length cs) as Hfl by (intros p; apply filter_length_le).
  assert (length cs - length (List.filter perf_check_in cs) = length (List.filter (fun c => negb (perf_check_in c)) cs)) as Hoth.
  { clear. induction cs as [|c cs IH]; [done|]. cbn. pose proof (filter_length_le perf_check_in cs).
    destruct (perf_check_in c); cbn; lia. }
  assert (sub64 (Z.of_nat (top_level_checks (res_of st))) (Z.of_nat (performance_checks (res_of st))) =
          Z.of_nat (length (List.filter (fun c => negb (perf_check_in c)) cs))) as Hchecks.
  { rewrite Htc, Hpc, Hn1, sub64_exact; [by rewrite Hoth|apply filter_length_le|done]. }
  assert (forall n, n = length (List.filter (fun c => fails md c && perf_check_in c) cs) ->
    sub64 (Z.of_nat (top_level_failures (res_of st))) (Z.of_nat n) =
    Z.of_nat (length (List.filter (fun c => fails md c && negb (perf_check_in c)) cs))) as Hfailing.
  { intros n ->. rewrite Htf, sub64_exact; [by rewrite filter_count| |].
    - rewrite (filter_split perf_check_in (fails md)). lia.
    - specialize (Hfl (fails md)). lia. }
  assert (md <> FalseNegative -> performance_failures (res_of st) =
    length (List.filter (fun c => fails md c && perf_check_in c) cs)) as Hpf'.
  { intros Hm. rewrite Hpf. by apply perf_failures_std. }
  assert (sub64 (Z.of_nat (deep_checks (res_of st))) (Z.of_nat (performance_checks (res_of st))) =
    Z.of_nat (count (fun e => is_check e && negb (is_perf_check e)) (in_test cs))) as Hdeep.
  { rewrite Hdc, Hpc, sub64_exact.
    - rewrite (count_minus is_perf_check is_check); [done|by intros []].
    - apply count_le. by intros [].
    - specialize (Hcl is_check). lia. }
  assert (sub64 (Z.of_nat (failures (res_of st))) (Z.of_nat (performance_failures (res_of st))) =
    Z.of_nat (count (fun e => is_failure e && negb (is_perf_failure e)) (in_test cs))) as Hdf.
  { rewrite Hf, Hpf, sub64_exact.
    - rewrite (count_minus is_perf_failure is_failure); [done|by intros []].
    - apply count_le. by intros [].
    - specialize (Hcl is_failure). lia. }
  rewrite Hn1 in Hpc.
  destruct md; cbn [summarize]; unfold counters; cbn [std_top_checks std_deep_checks std_perf_checks fp_checks fn_checks fp_perf_checks fn_perf_checks
    std_top_failures std_deep_failures std_perf_failures fp_failures fn_failures fp_perf_failures fn_perf_failures s_critical app];
    rewrite Hchecks, Hcf.
  - rewrite Hdeep, Hdf, (Hfailing _ (Hpf' ltac:(done))), (Hpf' ltac:(done)), Hpc. done.
  - rewrite (Hfailing _ (Hpf' ltac:(done))), (Hpf' ltac:(done)), Hpc. done.
  - assert (sub64 (Z.of_nat (performance_checks (res_of st))) (Z.of_nat (performance_failures (res_of st))) =
       Z.of_nat (length (List.filter (fun c => fails FalseNegative c && perf_check_in c) cs))) as ->.
    { pose proof (perf_failures_fn cs HF) as HH. rewrite Hpf, Hpc, <- Hn1. rewrite sub64_exact; [f_equal; lia|lia|].
      specialize (Hcl is_perf_check). lia. }
    rewrite (Hfailing _ eq_refl), Hpc. done.
Qed.

(** ** The algebra of summaries *)

Lemma add64_comm a b : add64 a b = add64 b a.
Proof. unfold add64. by rewrite Z.add_comm. Qed.

Lemma add64_assoc a b c : add64 (add64 a b) c = add64 a (add64 b c).
Proof. unfold add64. rewrite Zplus_mod_idemp_l, Zplus_mod_idemp_r. f_equal. lia. Qed.

Lemma add64_0 a : (0 <= a < 2 ^ 64)%Z -> add64 a 0 = a.
Proof. intros H. unfold add64. rewrite Z.add_0_r. by apply Z.mod_small. Qed.

Lemma plus_assoc a b c : plus (plus a b) c = plus a (plus b c).
Proof. unfold plus. cbn. rewrite !add64_assoc, !Z.add_assoc, !app_assoc. done. Qed.

Lemma plus_counters a b : counters (plus a b) = counters (plus b a) /\
  counters (plus a b) = zip_with add64 (counters a) (counters b) /\
  in_flight (plus a b) = in_flight (plus b a) /\ duration (plus a b) = duration (plus b a).
Proof.
  split; [unfold counters, plus; cbn; repeat (apply (f_equal2 (@cons Z)); [apply add64_comm|]); done|].
  split; [done|]. cbn. lia.
Qed.

Lemma wf_plus a b : wf_summary (plus a b).
Proof.
  unfold wf_summary, counters, plus. cbn. repeat constructor; unfold add64; apply Z.mod_pos_bound; lia.
Qed.

Lemma plus_empty_r a nm : wf_summary a -> plus a (empty_summary nm) = a.
Proof.
  intros H. unfold wf_summary, counters in H. destruct a. unfold plus, empty_summary. cbn in *.
  repeat match goal with H : Forall _ (_ :: _) |- _ => apply Forall_cons in H as [? H] end.
  rewrite !app_nil_r, !Z.add_0_r, !add64_0 by done. done.
Qed.

Lemma plus_empty_l a nm : wf_summary a -> counters (plus (empty_summary nm) a) = counters a /\
  s_failure_messages (plus (empty_summary nm) a) = s_failure_messages a /\
  s_diagnostics (plus (empty_summary nm) a) = s_diagnostics a /\
  in_flight (plus (empty_summary nm) a) = in_flight a /\ duration (plus (empty_summary nm) a) = duration a.
Proof.
  intros H. split; [|done]. rewrite (proj1 (plus_counters _ _)). by rewrite plus_empty_r.
Qed.

Lemma add64_swap a b c d : add64 (add64 a b) (add64 c d) = add64 (add64 a c) (add64 b d).
Proof. rewrite !add64_assoc, <- (add64_assoc b c d), (add64_comm b c), (add64_assoc c b d). done. Qed.

Lemma soft_failures_plus a b : soft_failures (plus a b) = add64 (soft_failures a) (soft_failures b).
Proof.
  unfold soft_failures, plus. cbn -[add64]. destruct a, b. cbn -[add64].
  do 5 (etransitivity; [|symmetry; apply add64_swap]; apply (f_equal2 add64); [|done]). done.
Qed.
