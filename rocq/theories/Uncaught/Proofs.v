(** Proofs about exceptions which leave a test. *)
From Coq Require Import Ascii String.
From stdpp Require Import list.
From Verif.Base Require Import Outcome ListLemmas.
From Verif.Text Require Import Model Spec.
From Verif.Log Require Import Model Spec SpecText Proofs ProofsText.
From Verif.Uncaught Require Import Model Spec.
Local Notation length := List.length.
Local Notation concat := List.concat.
Local Open Scope list_scope.
Local Open Scope res_scope.

Lemma close_settle md s st : close_sentinel md s st = (let? st1 := settle md s st in decrement_depth st1).
Proof. reflexivity. Qed.

Lemma end_message_stack md crit st st' : end_message md crit st = Ok st' -> stack st' = stack st.
Proof.
  unfold end_message. destruct (to_messages md crit); destruct (end_last _) as [l| | |]; cbn [rbind]; intros H;
    try discriminate; injection H as <-; reflexivity.
Qed.

Lemma end_message_counts md crit st st' : end_message md crit st = Ok st' ->
  critical_failures (res_of st') = critical_failures (res_of st) /\ failures (res_of st') = failures (res_of st).
Proof.
  unfold end_message. destruct (to_messages md crit); destruct (end_last _) as [l| | |]; cbn [rbind]; intros H;
    try discriminate; injection H as <-; split; reflexivity.
Qed.

(** The message on the stack when an outermost check is over *)
Lemma settle_message md m es st st2 st3 : stack st = [] ->
  run_events md es (snd (open_sentinel m st)) = Ok st2 ->
  settle md (fst (open_sentinel m st)) st2 = Ok st3 ->
  length (stack st3) = 1 /\ top_level_message st3 = final_message md (m, es).
Proof.
  intros Hst Hr Hs. unfold open_sentinel in *. rewrite Hst in *. cbn [fst snd] in *.
  set (st1 := increment_depth m (log_top_level_check st)) in *.
  assert (stack st1 = [(m, false)]) as Hs1 by (unfold st1; cbn; by rewrite Hst).
  destruct (run_inners md es st1) as (st2'&Er&Hl&Hv); [by rewrite Hs1|]. rewrite Hr in Er. injection Er as <-.
  pose proof (run_texts md es (0, m) 1 [] st1) as Ht.
  destruct (located_all [(0, m)] 1 es) as [l n'].
  destruct Ht as (st2'&Er'&Hm2&_); [by apply Forall_singleton; cbn; lia|by apply Forall_nil| |].
  { rewrite Hs1. constructor; [|constructor]. cbn. split; [done|]. intros _. symmetry. apply bool_decide_eq_false. intros H. inversion H. }
  rewrite Hr in Er'. injection Er' as <-.
  pose proof (top_of_marked _ _ _ _ Hm2) as Htop. cbn [snd] in Htop.
  assert (length (stack st2) = 1) as Hl1 by (by rewrite Hl, Hs1).
  change (concat (map leaves es)) with (in_check (m, es)) in Hv.
  rewrite (v_run_spec md _ (in_check_flat (m, es))) in Hv. set (c := (m, es)) in *.
  unfold settle in Hs. rewrite decide_True in Hs by done. cbn [prior_failures prior_critical] in Hs.
  set (pf := failures (res_of st)) in *. set (pc := critical_failures (res_of st)) in *.
  assert (critical_failures (res_of st2) = pc + count is_critical (in_check c)) as Hcrit by exact (f_equal v_critical Hv).
  assert (failures (res_of st2) = pf + count is_failure (in_check c)) as Hfail by exact (f_equal v_failures Hv).
  assert (negb (critical_failures (res_of st2) =? pc) = any is_critical (in_check c)) as Hca.
  { rewrite any_count, Hcrit. f_equal. lia. }
  assert (negb (failures (res_of st2) =? pf) = any is_failure (in_check c)) as Hfa.
  { rewrite any_count, Hfail. f_equal. lia. }
  assert (forall s m', length (stack s) = 1 -> top_level_message s = m ->
    length (stack (log_top_level_failure md m' s)) = 1 /\ top_level_message (log_top_level_failure md m' s) = m ++ m') as Hltf.
  { intros s m' H1 H2. unfold log_top_level_failure, top_level_message in *. cbn [stack] in *.
    destruct (stack s) as [|[a w] [|y l0]]; [done| |done]. cbn in *. by subst a. }
  unfold final_message, fails. rewrite Hca in Hs. destruct (any is_critical (in_check c)) eqn:Ec.
  { apply end_message_stack in Hs. unfold top_level_message in *. rewrite Hs. split; [done|].
    rewrite Htop. cbn [negb andb]. by destruct md; rewrite app_nil_r. }
  rewrite Hfa in Hs. destruct (any is_failure (in_check c)) eqn:Ef.
  - destruct (end_message md false st2) as [st4| | |] eqn:E4; cbn [rbind] in Hs; try discriminate.
    pose proof (end_message_stack _ _ _ _ E4) as Hs4. destruct (end_message_counts _ _ _ _ E4) as [Hc4 Hf4].
    rewrite Hf4, Hfa in Hs. unfold top_level_message in Htop. rewrite <-Hs4 in Htop, Hl1.
    change (match stack st4 with [] => [] | (m0, _) :: _ => m0 end) with (top_level_message st4) in Htop.
    cbn [negb andb].
    destruct md; cbn [negb rbind] in Hs; apply (f_equal (fun r => match r with Ok y => y | _ => st3 end)) in Hs; subst st3.
    + destruct (Hltf st4 [] Hl1 Htop) as [H1 H2]. split; [done|]. rewrite H2. done.
    + destruct (Hltf st4 [] Hl1 Htop) as [H1 H2]. split; [done|]. rewrite H2. done.
    + split; [done|]. rewrite Htop. by rewrite app_nil_r.
  - cbn [rbind] in Hs. rewrite Hfa, Hca in Hs. cbn [negb andb].
    destruct md; cbn [negb rbind] in Hs.
    + injection Hs as <-. split; [done|]. by rewrite app_nil_r.
    + rewrite append_lines__spec in Hs. cbn [rbind] in Hs.
      apply (f_equal (fun r => match r with Ok y => y | _ => st3 end)) in Hs. subst st3.
      split; [done|]. rewrite app_nil_r. exact Htop.
    + rewrite append_lines__spec, Htop in Hs. cbn [rbind] in Hs.
      apply (f_equal (fun r => match r with Ok y => y | _ => st3 end)) in Hs. subst st3.
      exact (Hltf st2 _ Hl1 Htop).
Qed.

Definition info_after (md : mode) (s : step) : info := mk_info (flight s) (final_message md (check_of s)).

Lemma run_step_spec md s st i : stack st = [] -> exists st',
  run_event md (Scope (message s) (events s)) st = Ok st' /\ stack st' = [] /\
  run_step md s (st, i) = Ok (st', info_after md s).
Proof.
  intros Hst. destruct (run_check md (message s) (events s) st Hst) as (st'&Hr&Hs'&_).
  exists st'. split; [done|]. split; [done|]. rewrite run_event_scope in Hr. unfold run_step. cbn [fst snd].
  destruct (open_sentinel (message s) st) as [sn st1] eqn:Eo. cbn [fst snd] in Hr.
  destruct (run_events md (events s) st1) as [st2| | |] eqn:E2; cbn [rbind] in *; try discriminate.
  rewrite close_settle in Hr. destruct (settle md sn st2) as [st3| | |] eqn:E3; cbn [rbind] in *; try discriminate.
  destruct (settle_message md (message s) (events s) st st2 st3) as [H1 H2]; [done|by rewrite Eo|by rewrite Eo|].
  unfold decrement_recording. rewrite Hr. cbn [rbind]. rewrite decide_True by done. by rewrite H2.
Qed.

Lemma run_steps_spec md ss : forall st i, stack st = [] -> exists st',
  run_events md (map (fun c => Scope (fst c) (snd c)) (map check_of ss)) st = Ok st' /\ stack st' = [] /\
  run_steps md ss (st, i) = Ok (st', match last ss with Some s => info_after md s | None => i end).
Proof.
  induction ss as [|s ss IH]; intros st i Hst; [by exists st|]. cbn [map run_steps run_events check_of fst snd].
  destruct (run_step_spec md s st i Hst) as (st1&->&Hs1&->). cbn [rbind].
  destruct (IH st1 (info_after md s) Hs1) as (st2&H1&H2&H3). exists st2. split; [done|]. split; [done|].
  rewrite H3. rewrite last_cons. by destruct (last ss).
Qed.

Lemma exception_message_spec tag file i what : exception_message tag file i what =
  Ok (report_text tag what (if decide (top_message i = []) then Before_all file
                            else if decide (num i = 0) then After (top_message i) else During (top_message i))).
Proof.
  unfold exception_message. rewrite append_lines__spec. cbn [rbind]. destruct i as [n t]. cbn [top_message num].
  destruct t as [|a t]; [by rewrite append_lines__spec|]. rewrite append_lines__spec.
  rewrite (decide_False (P := a :: t = [])) by discriminate. destruct (decide (n = 0)); reflexivity.
Qed.

Lemma run_events_app md es1 es2 st : run_events md (es1 ++ es2) st = (let? st1 := run_events md es1 st in run_events md es2 st1).
Proof.
  revert st. induction es1 as [|e es1 IH]; intros st; [done|]. cbn [app run_events].
  destruct (run_event md e st); [apply IH|done..].
Qed.

Lemma logged md file ss f : exists st, execute md file ss f = Ok st /\ run_test md (as_checks md file ss f) = Ok st.
Proof.
  destruct (run_test_spec md (as_checks md file ss f)) as (st&Hrun&_). exists st. split; [|done].
  unfold execute, run_test in *. destruct (run_steps_spec md ss fresh no_info eq_refl) as (st1&H1&Hs1&->). cbn [rbind].
  unfold as_checks in Hrun. rewrite map_app, run_events_app, H1 in Hrun. cbn [rbind] in Hrun.
  assert (forall tag w, thrown f = Some (tag, w) ->
    log_exception md file tag w (st1, match last ss with Some s => info_after md s | None => no_info end) = Ok st) as H.
  { intros tag w Ht. rewrite Ht in Hrun. cbn [map fst snd run_events] in Hrun. unfold log_exception. cbn [fst snd].
    rewrite exception_message_spec. cbn [rbind].
    assert ((if decide (top_message match last ss with Some s => info_after md s | None => no_info end = [])
      then Before_all file
      else if decide (num match last ss with Some s => info_after md s | None => no_info end = 0)
      then After (top_message match last ss with Some s => info_after md s | None => no_info end)
      else During (top_message match last ss with Some s => info_after md s | None => no_info end))
      = reported_place md file ss) as ->.
    { unfold reported_place. destruct (last ss); [done|]. by rewrite decide_True. }
    destruct (run_event md _ st1); cbn [rbind] in Hrun; [|done..]. done. }
  destruct f; cbn [thrown] in *; [|by apply H..]. exact Hrun.
Qed.

Lemma criticals md file ss f st : execute md file ss f = Ok st ->
  critical_failures (res_of st) = count is_critical (in_test (map check_of ss)) + match thrown f with Some _ => 1 | None => 0 end /\
  top_level_checks (res_of st) = length ss + match thrown f with Some _ => 1 | None => 0 end.
Proof.
  intros H. destruct (logged md file ss f) as (st'&H1&H2). rewrite H in H1. injection H1 as <-.
  destruct (run_test_spec md (as_checks md file ss f)) as (st'&H3&_&Hr). rewrite H2 in H3. injection H3 as <-.
  cbn zeta in Hr. destruct Hr as (Ha&_&Hb&_). rewrite Ha, Hb. unfold as_checks, in_test.
  rewrite map_app, concat_app, count_app, app_length, map_length. destruct (thrown f) as [[tag w]|]; done.
Qed.

Lemma earlier_kept md file ss f st st0 : execute md file ss Finishes = Ok st0 -> execute md file ss f = Ok st ->
  failures (res_of st) = failures (res_of st0) /\ top_level_failures (res_of st) = top_level_failures (res_of st0) /\
  deep_checks (res_of st) = deep_checks (res_of st0).
Proof.
  intros H0 H. destruct (logged md file ss f) as (st'&H1&H2). rewrite H in H1. injection H1 as <-.
  destruct (logged md file ss Finishes) as (st'&H1&H20). rewrite H0 in H1. injection H1 as <-.
  destruct (run_test_spec md (as_checks md file ss f)) as (st'&H3&_&Hr). rewrite H2 in H3. injection H3 as <-.
  destruct (run_test_spec md (as_checks md file ss Finishes)) as (st'&H3&_&Hr0). rewrite H20 in H3. injection H3 as <-.
  cbn zeta in Hr, Hr0. destruct Hr as (_&Ha&_&Hb&_&Hc&_). destruct Hr0 as (_&Ha0&_&Hb0&_&Hc0&_).
  rewrite Ha, Hb, Hc, Ha0, Hb0, Hc0. unfold as_checks, in_test. cbn [thrown]. rewrite app_nil_r.
  rewrite map_app, concat_app, !count_app, List.filter_app, app_length.
  assert (forall m : text, fails md ([], [Critical m]) = false) as Hf by (by destruct md).
  destruct (thrown f) as [[tag w]|]; cbn [map concat in_check snd leaves app List.filter]; [|rewrite !Nat.add_0_r; done].
  rewrite Hf. cbn. lia.
Qed.

Lemma place_right md file inside ss : plausible inside ss ->
  Forall (fun s => message s <> []) ss ->
  (inside = false -> forall s, last ss = Some s -> flight s = 0) ->
  reported_place md file ss = true_place md file inside ss.
Proof.
  intros Hp Hm Ho. unfold reported_place, true_place. destruct (last ss) as [s|] eqn:El; [|done].
  rewrite decide_False.
  2:{ unfold final_message. intros E. apply app_nil in E as [E _]. rewrite Forall_forall in Hm. apply (Hm s); [|done].
      apply last_Some_elem_of. done. }
  destruct inside.
  - destruct (Hp eq_refl) as (s'&E&Hu). rewrite El in E. injection E as <-. rewrite decide_False; [done|].
    unfold flight. rewrite Hu. lia.
  - rewrite decide_True; [done|]. by apply Ho.
Qed.

(** ** Refutations *)
Definition quiet : step := mk_step [] [Check] false 0.
Definition abandoned : step := mk_step (list_ascii_of_string "Sizes") [Check] true 0.

Lemma silent : exists ss, ss <> [] /\ forall md file, reported_place md file ss = Before_all file \/ md = FalseNegative.
Proof.
  exists [quiet]. split; [discriminate|]. intros md file. destruct md; [left|left|right]; reflexivity.
Qed.

Lemma caught_by_test : exists ss, plausible false ss /\ Forall (fun s => message s <> []) ss /\
  exists m, reported_place Standard [] ss = During m /\ true_place Standard [] false ss = After m.
Proof.
  exists [abandoned]. split; [done|]. split; [apply Forall_singleton; discriminate|].
  exists (list_ascii_of_string "Sizes"). split; reflexivity.
Qed.

Lemma negative_fails : exists s st, unwound s = true /\
  execute FalseNegative [] [s] (Leaves []) = Ok st /\
  top_level_failures (res_of st) = 1 /\ failures (res_of st) = 0 /\ critical_failures (res_of st) = 1.
Proof.
  exists abandoned. destruct (logged FalseNegative [] [abandoned] (Leaves [])) as (st&H1&H2). exists st.
  split; [reflexivity|]. split; [exact H1|].
  destruct (run_test_spec FalseNegative (as_checks FalseNegative [] [abandoned] (Leaves []))) as (st'&H3&_&Hr).
  rewrite H2 in H3. injection H3 as <-. cbn zeta in Hr. destruct Hr as (_&Ha&Hb&Hc&_).
  rewrite Ha, Hb, Hc. repeat split; reflexivity.
Qed.

Lemma counted : exists ss st, execute Standard [] ss (Leaves []) = Ok st /\ top_level_checks (res_of st) <> length ss.
Proof.
  exists []. destruct (logged Standard [] [] (Leaves [])) as (st&H1&H2). exists st. split; [exact H1|].
  destruct (criticals _ _ _ _ _ H1) as [_ ->]. discriminate.
Qed.
