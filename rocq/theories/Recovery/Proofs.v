(** Proofs about the recovery and dump files. *)
From Coq Require Import Ascii String.
From stdpp Require Import list.
From Verif.Base Require Import Outcome ListLemmas.
From Verif.Text Require Import Model.
From Verif.Log Require Import Model Spec Proofs.
From Verif.Recovery Require Import Model Spec.
Local Notation length := List.length.
Local Notation concat := List.concat.
Local Open Scope list_scope.
Local Open Scope res_scope.

(** What a list of marks does to the files, once a check has been started *)
Definition mark_files (a : active) (k : mark) (f : files) : files :=
  match k with
  | Enters m => record_dump_started a m f
  | Fails_badly m => record_critical_failure a m f
  end.
Definition marks_files (a : active) (ks : list mark) (f : files) : files :=
  fold_left (fun f k => mark_files a k f) ks f.

Lemma marks_files_app a k1 k2 f : marks_files a (k1 ++ k2) f = marks_files a k2 (marks_files a k1 f).
Proof. apply fold_left_app. Qed.

Lemma marks_files_cons a k ks f : marks_files a (k :: ks) f = marks_files a ks (mark_files a k f).
Proof. reflexivity. Qed.

Lemma record_event_scope a md m es s :
  record_event a md (Scope m es) s =
  (let? s2 := record_events a md es (snd (enter a m s)) in leave a md (fst (enter a m s)) s2).
Proof.
  cbn [record_event]. destruct (enter a m s) as [sn s1]. cbn [fst snd]. f_equal.
  revert s1. induction es as [|e es IH]; intros s1; [done|]. cbn [record_events].
  destruct (record_event a md e s1); [apply IH|done..].
Qed.

Lemma enter_inner a m st f : stack st <> [] ->
  enter a m (st, f) = (fst (open_sentinel m st), (snd (open_sentinel m st), record_dump_started a m f)).
Proof. intros H. unfold enter. destruct (open_sentinel m st). by destruct (stack st). Qed.

Lemma open_length m st : length (stack (snd (open_sentinel m st))) = S (length (stack st)).
Proof.
  unfold open_sentinel. cbn [snd]. unfold increment_depth. destruct (stack st) eqn:E; cbn; rewrite ?app_length, ?E; cbn; lia.
Qed.

(** Within an open check: the logger as before, and the files according to the marks. *)
Lemma record_inner a md e : forall st f, stack st <> [] ->
  record_event a md e (st, f) = (let? st' := run_event md e st in Ok (st', marks_files a (marks e) f)).
Proof.
  induction e as [| | | | | |m es IH] using event_ind'; intros st f Hst; try reflexivity.
  rewrite record_event_scope, run_event_scope, enter_inner by done. cbn [fst snd].
  assert (forall st f, stack st <> [] -> record_events a md es (st, f) =
    (let? st' := run_events md es st in Ok (st', marks_files a (concat (map marks es)) f))) as Hes.
  { clear st f Hst. induction IH as [|e es He _ IHes]; intros st f Hst; [done|]. cbn [record_events run_events].
    rewrite He by done. destruct (run_inner md e st Hst) as (st2&->&Hl&_). cbn [rbind].
    rewrite IHes. 2:{ intros E. rewrite E in Hl. destruct (stack st); done. }
    cbn [map concat]. by rewrite marks_files_app. }
  pose proof (open_length m st) as Hol.
  rewrite Hes. 2:{ intros E. rewrite E in Hol. done. }
  destruct (run_inners md es (snd (open_sentinel m st))) as (st2&->&Hl&_).
  { intros E. rewrite E in Hol. done. }
  cbn [rbind]. unfold leave. rewrite decide_False. 2:{ rewrite Hl, Hol. destruct (stack st); [done|cbn; lia]. }
  cbn [marks]. reflexivity.
Qed.

Lemma record_inners a md es : forall st f, stack st <> [] ->
  exists st', run_events md es st = Ok st' /\ length (stack st') = length (stack st) /\
    record_events a md es (st, f) = Ok (st', marks_files a (concat (map marks es)) f).
Proof.
  induction es as [|e es IH]; intros st f Hst; [by exists st|]. cbn [record_events run_events].
  rewrite record_inner by done. destruct (run_inner md e st Hst) as (st2&->&Hl&_). cbn [rbind].
  destruct (IH st2 (marks_files a (marks e) f)) as (st'&H1&H2&H3).
  { intros E. rewrite E in Hl. destruct (stack st); done. }
  exists st'. rewrite H1, H3. split; [done|]. split; [lia|]. cbn [map concat]. by rewrite marks_files_app.
Qed.

Lemma record_progresses a md p : forall st f, stack st <> [] ->
  exists st', record_progress a md p (st, f) = Ok (st', marks_files a (progress_marks p) f).
Proof.
  induction p as [es|es m p IH]; intros st f Hst; cbn [record_progress progress_marks].
  - destruct (record_inners a md es st f Hst) as (st'&_&_&->). by exists st'.
  - destruct (record_inners a md es st f Hst) as (st'&_&Hl&->). cbn [rbind].
    rewrite enter_inner by (intros E; rewrite E in Hl; destruct (stack st); done). cbn [snd].
    destruct (IH (snd (open_sentinel m st')) (record_dump_started a m (marks_files a (concat (map marks es)) f)))
      as (st2&->).
    { pose proof (open_length m st') as Hol. intros E. rewrite E in Hol. done. }
    exists st2. by rewrite marks_files_app.
Qed.

Lemma enter_outer a m st f : stack st = [] ->
  enter a m (st, f) = (fst (open_sentinel m st),
    (snd (open_sentinel m st), record_dump_started a m (record_check_started a m f))).
Proof. intros H. unfold enter. destruct (open_sentinel m st). by rewrite H. Qed.

Lemma bad_app k1 k2 : bad (k1 ++ k2) = bad k1 || bad k2.
Proof. apply existsb_app. Qed.

Lemma bad_marks e : bad (marks e) = any is_critical (leaves e).
Proof.
  induction e as [| | | | | |m es IH] using event_ind'; try reflexivity.
  cbn [marks leaves]. change (bad (Enters m :: ?l)) with (bad l).
  induction IH as [|e es He _ IHes]; [done|]. cbn [map concat]. unfold any in *.
  by rewrite bad_app, existsb_app, He, IHes.
Qed.

Lemma bad_check c : bad (check_marks c) = any is_critical (in_check c).
Proof.
  unfold check_marks, in_check. induction (snd c) as [|e es IH]; [done|]. cbn [map concat]. unfold any in *.
  by rewrite bad_app, existsb_app, bad_marks, IH.
Qed.

(** What an outermost check does to the files *)
Definition check_files (a : active) (c : text * list event) (f : files) : files :=
  let f1 := marks_files a (Enters (fst c) :: check_marks c) (record_check_started a (fst c) f) in
  record_dump_ended a (if bad (check_marks c) then f1 else record_check_ended a f1).

Lemma record_check a md c st f : stack st = [] ->
  exists st', run_event md (top c) st = Ok st' /\ stack st' = [] /\
    record_event a md (top c) (st, f) = Ok (st', check_files a c f).
Proof.
  intros Hst. destruct c as [m es]. unfold top. cbn [fst snd].
  destruct (run_check md m es st Hst) as (st'&Hrun&Hst'&_). exists st'. split; [done|]. split; [done|].
  rewrite run_event_scope in Hrun. rewrite record_event_scope, enter_outer by done. cbn [fst snd].
  assert (length (stack (snd (open_sentinel m st))) = 1) as Hol by (by rewrite open_length, Hst).
  assert (stack (snd (open_sentinel m st)) <> []) as Hne by (intros E; rewrite E in Hol; done).
  destruct (record_inners a md es (snd (open_sentinel m st))
    (record_dump_started a m (record_check_started a m f)) Hne) as (st2&H1&Hl&->).
  destruct (run_inners md es _ Hne) as (st3&H3&_&Hv). rewrite H1 in H3. injection H3 as <-.
  rewrite H1 in Hrun. cbn [rbind] in *. unfold leave. rewrite decide_True by lia.
  rewrite Hrun. cbn [rbind]. f_equal. f_equal. unfold check_files. cbn [fst].
  change (check_marks (m, es)) with (concat (map marks es)).
  assert (negb (critical_failures (res_of st2) =? prior_critical (fst (open_sentinel m st)))
    = bad (concat (map marks es))) as ->; [|reflexivity].
  change (concat (map marks es)) with (check_marks (m, es)). rewrite bad_check.
  change (in_check (m, es)) with (concat (map leaves es)).
  change (critical_failures (res_of st2)) with (v_critical (view_of st2)). rewrite Hv.
  rewrite v_run_spec by apply (in_check_flat (m, es)). cbn [v_critical].
  rewrite any_count. f_equal.
  assert (v_critical (view_of (snd (open_sentinel m st))) = prior_critical (fst (open_sentinel m st))) as ->.
  { unfold open_sentinel. rewrite Hst. done. }
  apply eq_true_iff_eq. rewrite !Nat.eqb_eq. lia.
Qed.

Fixpoint checks_files (a : active) (cs : list (text * list event)) (f : files) : files :=
  match cs with [] => f | c :: cs' => checks_files a cs' (check_files a c f) end.

Lemma checks_files_app a c1 c2 f : checks_files a (c1 ++ c2) f = checks_files a c2 (checks_files a c1 f).
Proof. revert f. induction c1 as [|c c1 IH]; intros f; [done|]. cbn. apply IH. Qed.

Lemma record_checks a md cs : forall st f, stack st = [] ->
  exists st', run_events md (map top cs) st = Ok st' /\ stack st' = [] /\
    record_events a md (map top cs) (st, f) = Ok (st', checks_files a cs f).
Proof.
  induction cs as [|c cs IH]; intros st f Hst; [by exists st|]. cbn [map run_events record_events checks_files].
  destruct (record_check a md c st f Hst) as (st'&->&Hst'&->). cbn [rbind]. by apply IH.
Qed.

Lemma record_test_files a t f : record_test a t f = Ok (checks_files a (snd t) f).
Proof. unfold record_test. by destruct (record_checks a (fst t) (snd t) fresh f eq_refl) as (st&_&_&->). Qed.

Lemma record_tests_files a ts : forall f, record_tests a ts f = Ok (checks_files a (all_checks ts) f).
Proof.
  induction ts as [|t ts IH]; intros f; [done|]. cbn [record_tests]. rewrite record_test_files. cbn [rbind].
  rewrite IH. unfold all_checks. cbn [map concat]. by rewrite checks_files_app.
Qed.

Lemma files_at_eq a old ts last :
  files_at a old ts last = Ok
    (let f := checks_files a (over ts last) (at_start a old) in
     match open_check last with
     | None => f
     | Some (m, p) => marks_files a (Enters m :: progress_marks p) (record_check_started a m f)
     end).
Proof.
  unfold files_at. rewrite record_tests_files. cbn [rbind]. unfold over.
  destruct last as [[[md cs] [[m p]|]]|]; cbn [open_check snd].
  - destruct (record_checks a md cs fresh (checks_files a (all_checks ts) (at_start a old)) eq_refl) as (st&_&Hst&->).
    cbn [rbind]. rewrite enter_outer by done. cbn [snd].
    destruct (record_progresses a md p (snd (open_sentinel m st))
      (record_dump_started a m (record_check_started a m (checks_files a cs (checks_files a (all_checks ts) (at_start a old))))))
      as (st2&->).
    { pose proof (open_length m st) as Hol. intros E. rewrite E in Hol. done. }
    cbn [rbind snd]. by rewrite checks_files_app.
  - rewrite record_test_files. cbn [snd]. by rewrite checks_files_app.
  - by rewrite app_nil_r.
Qed.

(** ** The two files *)

Lemma marks_recovery a ks : recover a = true -> forall f t, recovery_file f = Some t ->
  recovery_file (marks_files a ks f) = Some (t ++ criticals ks).
Proof.
  intros Ha. induction ks as [|k ks IH]; intros f t Hf; [cbn; by rewrite app_nil_r|]. rewrite marks_files_cons.
  destruct k as [m|m]; cbn [mark_files].
  - erewrite IH; [done|]. unfold record_dump_started. by destruct (dumping a).
  - erewrite IH; [|unfold record_critical_failure; rewrite Ha; cbn [recovery_file]; rewrite Hf; cbn; reflexivity].
    unfold criticals. cbn [map concat]. rewrite <-!app_assoc. reflexivity.
Qed.

Lemma marks_dump a ks : dumping a = true -> forall f,
  default [] (dump_file (marks_files a ks f)) = default [] (dump_file f) ++ entered ks.
Proof.
  intros Ha. induction ks as [|k ks IH]; intros f; [cbn; by rewrite app_nil_r|]. rewrite marks_files_cons.
  destruct k as [m|m]; cbn [mark_files]; rewrite IH.
  - unfold record_dump_started. rewrite Ha. cbn. unfold entered. cbn [map concat entered_text]. by rewrite <-!app_assoc.
  - unfold record_critical_failure. destruct (recover a); done.
Qed.

Lemma check_recovery a c f : recover a = true ->
  recovery_file (check_files a c f) =
    Some (names_check (fst c) (check_marks c) ++ if bad (check_marks c) then [] else txt_ended).
Proof.
  intros Ha. unfold check_files.
  assert (recovery_file (marks_files a (Enters (fst c) :: check_marks c) (record_check_started a (fst c) f)) =
    Some (names_check (fst c) (check_marks c))) as H.
  { erewrite marks_recovery; [|done|unfold record_check_started; rewrite Ha; reflexivity].
    unfold names_check, criticals. cbn [map concat critical_text app]. rewrite <-!app_assoc. reflexivity. }
  unfold record_dump_ended. destruct (bad (check_marks c)).
  - rewrite app_nil_r. by destruct (dumping a).
  - unfold record_check_ended. rewrite Ha. destruct (dumping a); cbn [recovery_file]; by rewrite H.
Qed.

Lemma check_dump a c f : dumping a = true ->
  default [] (dump_file (check_files a c f)) = default [] (dump_file f) ++ dumped c.
Proof.
  intros Ha. unfold check_files, record_dump_ended. rewrite Ha. cbn [dump_file append_to default].
  assert (forall g, dump_file (if bad (check_marks c) then g else record_check_ended a g) = dump_file g) as ->.
  { intros g. destruct (bad _); [done|]. unfold record_check_ended. by destruct (recover a). }
  unfold append_to. cbn [default from_option]. rewrite marks_dump by done.
  assert (dump_file (record_check_started a (fst c) f) = dump_file f) as ->.
  { unfold record_check_started. by destruct (recover a). }
  unfold dumped, entered. cbn [map concat entered_text]. by rewrite <-!app_assoc.
Qed.

Lemma checks_recovery a cs c f : recover a = true ->
  recovery_file (checks_files a (cs ++ [c]) f) =
    Some (names_check (fst c) (check_marks c) ++ if bad (check_marks c) then [] else txt_ended).
Proof. intros Ha. rewrite checks_files_app. cbn. by apply check_recovery. Qed.

Lemma checks_dump a cs : dumping a = true -> forall f,
  default [] (dump_file (checks_files a cs f)) = default [] (dump_file f) ++ concat (map dumped cs).
Proof.
  intros Ha. induction cs as [|c cs IH]; intros f; cbn; [by rewrite app_nil_r|].
  rewrite IH, check_dump by done. by rewrite <-app_assoc.
Qed.

(** Options not given: nothing is touched. *)
Lemma marks_off a ks f : recover a = false -> recovery_file (marks_files a ks f) = recovery_file f.
Proof.
  intros Ha. revert f. induction ks as [|k ks IH]; intros f; [done|]. rewrite marks_files_cons, IH.
  destruct k; cbn; [unfold record_dump_started; by destruct (dumping a)|unfold record_critical_failure; by rewrite Ha].
Qed.
Lemma marks_dump_off a ks f : dumping a = false -> dump_file (marks_files a ks f) = dump_file f.
Proof.
  intros Ha. revert f. induction ks as [|k ks IH]; intros f; [done|]. rewrite marks_files_cons, IH.
  destruct k; cbn; [unfold record_dump_started; by rewrite Ha|unfold record_critical_failure; by destruct (recover a)].
Qed.

Lemma started_off a m f : recover a = false -> record_check_started a m f = f.
Proof. intros Ha. unfold record_check_started. by rewrite Ha. Qed.
Lemma started_dump a m f : dump_file (record_check_started a m f) = dump_file f.
Proof. unfold record_check_started. by destruct (recover a). Qed.

Lemma checks_off a cs f : recover a = false -> recovery_file (checks_files a cs f) = recovery_file f.
Proof.
  intros Ha. revert f. induction cs as [|c cs IH]; intros f; [done|]. cbn. rewrite IH. unfold check_files.
  assert (forall g, recovery_file (record_dump_ended a g) = recovery_file g) as ->.
  { intros g. unfold record_dump_ended. by destruct (dumping a). }
  unfold record_check_ended. rewrite Ha. rewrite started_off by done.
  destruct (bad _); by apply (marks_off a (Enters (fst c) :: check_marks c)).
Qed.
Lemma checks_dump_off a cs f : dumping a = false -> dump_file (checks_files a cs f) = dump_file f.
Proof.
  intros Ha. revert f. induction cs as [|c cs IH]; intros f; [done|]. cbn. rewrite IH. unfold check_files.
  unfold record_dump_ended. rewrite Ha.
  assert (forall g, dump_file (if bad (check_marks c) then g else record_check_ended a g) = dump_file g) as ->.
  { intros g. destruct (bad _); [done|]. unfold record_check_ended. by destruct (recover a). }
  rewrite marks_dump_off by done. apply started_dump.
Qed.

(** ** The claims *)

Lemma same_logger a md cs f :
  exists st g, run_test md cs = Ok st /\ record_events a md (map top cs) (fresh, f) = Ok (st, g).
Proof.
  destruct (record_checks a md cs fresh f eq_refl) as (st&H1&_&H2). by exists st, (checks_files a cs f).
Qed.

Lemma inactive_untouched old ts last a : exists f, files_at a old ts last = Ok f /\
  (recover a = false -> recovery_file f = recovery_file old) /\
  (dumping a = false -> dump_file f = dump_file old).
Proof.
  rewrite files_at_eq. eexists. split; [reflexivity|]. split; intros Ha; cbn zeta.
  - destruct (open_check last) as [[m p]|].
    + rewrite marks_off, started_off, checks_off by done. unfold at_start. by rewrite Ha.
    + rewrite checks_off by done. unfold at_start. by rewrite Ha.
  - destruct (open_check last) as [[m p]|].
    + rewrite marks_dump_off, started_dump, checks_dump_off by done. unfold at_start. by rewrite Ha.
    + rewrite checks_dump_off by done. unfold at_start. by rewrite Ha.
Qed.

Lemma recovery_open a old ts t m p : recover a = true -> exists f,
  files_at a old ts (Some (t, Some (m, p))) = Ok f /\
  recovery_file f = Some (names_check m (progress_marks p)).
Proof.
  intros Ha. rewrite files_at_eq. eexists. split; [reflexivity|]. cbn zeta. cbn [open_check].
  erewrite marks_recovery; [|done|unfold record_check_started; rewrite Ha; reflexivity].
  unfold names_check, criticals. cbn [map concat critical_text app]. rewrite <-!app_assoc. reflexivity.
Qed.

Lemma recovery_over a old ts last cs c : recover a = true -> open_check last = None -> over ts last = cs ++ [c] ->
  exists f, files_at a old ts last = Ok f /\
  recovery_file f = Some (names_check (fst c) (check_marks c) ++
    if any is_critical (in_check c) then [] else txt_ended).
Proof.
  intros Ha Ho Hc. rewrite files_at_eq. eexists. split; [reflexivity|]. cbn zeta. rewrite Ho, Hc.
  rewrite checks_recovery by done. by rewrite bad_check.
Qed.

Lemma recovery_none a old ts last : recover a = true -> open_check last = None -> over ts last = [] ->
  exists f, files_at a old ts last = Ok f /\ recovery_file f = None.
Proof.
  intros Ha Ho Hc. rewrite files_at_eq. eexists. split; [reflexivity|]. cbn zeta. rewrite Ho, Hc.
  unfold at_start. by rewrite Ha.
Qed.

Lemma dump_contents a old ts last : dumping a = true -> exists f, files_at a old ts last = Ok f /\
  default [] (dump_file f) = concat (map dumped (over ts last)) ++
    match open_check last with
    | None => []
    | Some (m, p) => m ++ [nl] ++ entered (progress_marks p)
    end.
Proof.
  intros Ha. rewrite files_at_eq. eexists. split; [reflexivity|]. cbn zeta.
  destruct (open_check last) as [[m p]|].
  - rewrite marks_dump, started_dump, checks_dump by done. unfold at_start. rewrite Ha. cbn [dump_file default from_option app].
    unfold entered. cbn [map concat entered_text]. by rewrite <-!app_assoc.
  - rewrite checks_dump, app_nil_r by done. unfold at_start. by rewrite Ha.
Qed.

(** ** Telling a crash from a check which is over *)

Lemma names_check_shape m ks : exists u, names_check m ks = u ++ [nl] ++ last_text m ks ++ [nl].
Proof.
  unfold names_check.
  assert (forall pre x, exists u, pre ++ [nl] ++ x ++ [nl] ++ criticals ks = u ++ [nl] ++ last_text x ks ++ [nl]) as H.
  { induction ks as [|k ks IH]; intros pre x.
    - exists pre. reflexivity.
    - destruct k as [y|y]; [apply IH|]. unfold criticals. cbn [map concat critical_text last_text].
      destruct (IH (pre ++ [nl] ++ x ++ [nl] ++ [nl] ++ list_ascii_of_string "Critical Failure:") y) as [u Hu].
      exists u. rewrite <-Hu. unfold criticals. by rewrite <-!app_assoc. }
  destruct (H (list_ascii_of_string "Check started:") m) as [u Hu]. exists u. exact Hu.
Qed.

Lemma is_over_iff u x : is_over (u ++ [nl] ++ x ++ [nl]) <-> ends_with_ended x.
Proof.
  unfold is_over, ends_with_ended. split.
  - intros [v Hv]. rewrite !app_assoc in Hv. apply app_inj_tail in Hv as [Hv _].
    rewrite <-!app_assoc in Hv.
    (* compare the lengths of the final parts *)
    destruct (decide (length x < 11)) as [Hlt|Hge].
    + exfalso. assert (length (list_ascii_of_string "Check ended") = 11) as Hl by done.
      apply (f_equal (@rev _)) in Hv. rewrite !rev_app_distr in Hv. cbn [rev app] in Hv.
      apply (f_equal (fun l => l !! length x)) in Hv.
      rewrite lookup_app_l in Hv by (rewrite app_length, rev_length; cbn; lia).
      rewrite lookup_app_r in Hv by (rewrite rev_length; lia). rewrite rev_length, Nat.sub_diag in Hv. cbn in Hv.
      revert Hv Hlt. generalize (length x). clear. intros k Hv Hlt.
      do 11 (destruct k as [|k]; [discriminate Hv|]). lia.
    + exists (drop (length u) v).
      assert (length u <= length v) as Hle.
      { apply (f_equal length) in Hv. rewrite !app_length in Hv. cbn in Hv. lia. }
      apply (f_equal (drop (length u))) in Hv. rewrite drop_app in Hv. rewrite Hv.
      by rewrite drop_app_le by done.
  - intros [v Hv]. exists (u ++ v). rewrite !app_assoc. f_equal. rewrite <-!app_assoc. f_equal. exact Hv.
Qed.

Lemma is_over_names m ks : is_over (names_check m ks) <-> ends_with_ended (last_text m ks).
Proof.
  destruct (names_check_shape m ks) as [u ->]. apply is_over_iff.
Qed.

Lemma is_over_ended m ks : is_over (names_check m ks ++ txt_ended).
Proof.
  destruct (names_check_shape m ks) as [u ->]. exists (u ++ [nl] ++ last_text m ks).
  rewrite <-!app_assoc. reflexivity.
Qed.

Lemma told_apart a old ts last f t : recover a = true -> files_at a old ts last = Ok f -> recovery_file f = Some t ->
  (forall m ks, current ts last = Some (m, ks) -> ~ ends_with_ended (last_text m ks)) ->
  (is_over t <-> open_check last = None /\
     exists cs c, over ts last = cs ++ [c] /\ any is_critical (in_check c) = false).
Proof.
  intros Ha Hf Ht Hm. unfold current in Hm. destruct (open_check last) as [[m p]|] eqn:Ho.
  - destruct last as [[tt o]|]; [|done]. cbn in Ho. subst o.
    destruct (recovery_open a old ts tt m p Ha) as (f'&Hf'&Ht'). rewrite Hf in Hf'. injection Hf' as <-.
    rewrite Ht in Ht'. apply (inj Some) in Ht' as ->. rewrite is_over_names. split; [intros H|by intros [? _]].
    exfalso. by apply (Hm m (progress_marks p)).
  - destruct (over ts last) as [|c cs _] eqn:Hov using rev_ind.
    + destruct (recovery_none a old ts last Ha Ho Hov) as (f'&Hf'&Ht'). rewrite Hf in Hf'. injection Hf' as <-. congruence.
    + destruct (recovery_over a old ts last cs c Ha Ho Hov) as (f'&Hf'&Ht'). rewrite Hf in Hf'. injection Hf' as <-.
      rewrite Ht in Ht'. apply (inj Some) in Ht' as ->. rewrite last_snoc in Hm.
      destruct (any is_critical (in_check c)) eqn:Hc.
      * rewrite app_nil_r, is_over_names. split; [intros H; exfalso; by eapply Hm|].
        intros [_ (cs'&c'&He&Hc')]. apply app_inj_tail in He as [_ <-]. congruence.
      * split; [intros _; split; [done|]; by exists cs, c|]. intros _. apply is_over_ended.
Qed.

Lemma criticals_none ks : bad ks = false -> criticals ks = [].
Proof. induction ks as [|[m|m] ks IH]; [done| |done]. cbn. exact IH. Qed.

Lemma identifies m1 m2 ks1 ks2 : bad ks1 = false -> bad ks2 = false ->
  names_check m1 ks1 = names_check m2 ks2 -> m1 = m2.
Proof.
  intros H1 H2. unfold names_check. rewrite !criticals_none, !app_nil_r by done. intros H.
  apply app_inv_head in H. apply app_inv_head in H. by apply app_inj_tail in H as [-> _].
Qed.

Lemma open_identified a old1 old2 ts1 ts2 t1 t2 m1 m2 p1 p2 f1 f2 : recover a = true ->
  files_at a old1 ts1 (Some (t1, Some (m1, p1))) = Ok f1 ->
  files_at a old2 ts2 (Some (t2, Some (m2, p2))) = Ok f2 ->
  bad (progress_marks p1) = false -> bad (progress_marks p2) = false ->
  recovery_file f1 = recovery_file f2 -> m1 = m2.
Proof.
  intros Ha H1 H2 B1 B2 He.
  destruct (recovery_open a old1 ts1 t1 m1 p1 Ha) as (f1'&Hf1&Hr1). rewrite H1 in Hf1. injection Hf1 as <-.
  destruct (recovery_open a old2 ts2 t2 m2 p2 Ha) as (f2'&Hf2&Hr2). rewrite H2 in Hf2. injection Hf2 as <-.
  rewrite Hr1, Hr2 in He. apply (inj Some) in He. exact (identifies m1 m2 _ _ B1 B2 He).
Qed.

(** ** Refutations *)

Definition both : active := mk_active true true.
Definition nothing_there : files := mk_files None None.

Lemma critical_looks_open : exists t m es p f g,
  files_at both nothing_there [] (Some ((t, [(m, es)]), None)) = Ok f /\
  files_at both nothing_there [] (Some ((t, []), Some (m, p))) = Ok g /\
  recovery_file f = recovery_file g.
Proof.
  exists Standard, (list_ascii_of_string "Sizes differ"), [Critical (list_ascii_of_string "No data")],
    (Here [Critical (list_ascii_of_string "No data")]).
  rewrite !files_at_eq. do 2 eexists. split; [reflexivity|]. split; [reflexivity|]. vm_compute. reflexivity.
Qed.

Lemma open_looks_over : exists m f t,
  files_at both nothing_there [] (Some ((Standard, []), Some (m, Here []))) = Ok f /\
  recovery_file f = Some t /\ is_over t.
Proof.
  exists (list_ascii_of_string "Check ended").
  destruct (recovery_open both nothing_there [] (Standard, []) (list_ascii_of_string "Check ended") (Here []) eq_refl)
    as (f&Hf&Hr).
  exists f. eexists. split; [done|]. split; [done|]. apply is_over_names. exists []. reflexivity.
Qed.

(** The dump does not show which sentinel is within which. *)
Lemma nesting_lost : exists p1 p2 f g, p1 <> p2 /\
  files_at both nothing_there [] (Some ((Standard, []), Some ([], p1))) = Ok f /\
  files_at both nothing_there [] (Some ((Standard, []), Some ([], p2))) = Ok g /\
  dump_file f = dump_file g /\ recovery_file f = recovery_file g.
Proof.
  exists (Within [] (list_ascii_of_string "a") (Within [] (list_ascii_of_string "b") (Here []))),
    (Within [Scope (list_ascii_of_string "a") []] (list_ascii_of_string "b") (Here [])).
  rewrite !files_at_eq. do 2 eexists. split; [discriminate|]. split; [reflexivity|]. split; [reflexivity|].
  split; vm_compute; reflexivity.
Qed.
