(** Proofs about the texts of summaries. *)
From Coq Require Import Ascii String ZArith Lia.
From stdpp Require Import list.
From Verif.Base Require Import Outcome ListLemmas.
From Verif.Text Require Import Model Spec Proofs ProofsIndent.
From Verif.Log Require Import Model.
From Verif.Summary Require Import Model Spec.
Local Open Scope res_scope.
Local Notation "⌜ s ⌝" := (list_ascii_of_string s%string).
Local Notation length := List.length.

Lemma indent__ok sv ind : indent_ sv ind = Ok (indented ind sv).
Proof. unfold indent_. rewrite indent_spec; [done|lia]. Qed.
Lemma append__ok s1 s2 ind : append_indented_ s1 s2 ind = Ok (match s2, s1 with [], _ => s1 | _, [] => s2 | _, _ => s1 ++ [nl] ++ indented ind s2 end).
Proof. unfold append_indented_. rewrite append_indented_spec by lia. by destruct s1, s2. Qed.

Lemma longest_le l : Forall (fun t => length t <= longest l) l.
Proof.
  unfold longest. induction l as [|x l IH]; cbn [map foldr]; [by apply Forall_nil|]. apply Forall_cons. split; [lia|].
  eapply Forall_impl; [exact IH|]. intros y Hy. cbn in Hy. lia.
Qed.
Lemma longest_in l : longest l = 0 \/ exists t, t ∈ l /\ length t = longest l.
Proof.
  unfold longest. induction l as [|x l IH]; cbn [map foldr]; [by left|]. right.
  destruct (Nat.max_spec (length x) (foldr Nat.max 0 (map length l))) as [[Hl ->]|[Hl ->]].
  - destruct IH as [IH|(t & Ht & IH)]; [lia|]. exists t. split; [by right|done].
  - exists x. split; [left|done].
Qed.
Lemma column_ok least l : column least (Nat.max (longest l) least) l.
Proof.
  split; [lia|]. split.
  - eapply Forall_impl; [apply longest_le|]. cbn. lia.
  - destruct (longest_in l) as [E|(t & Ht & E)]; [left; lia|]. destruct (Nat.max_spec (longest l) least) as [[Hl ->]|[Hl ->]]; [by left|].
    right. by exists t.
Qed.

Lemma indented_ne ind l : l <> [] -> indented ind l <> [].
Proof.
  intros Hl E. unfold indented in E. pose proof (join_lines l) as J. destruct (lines l) as [|x [|y ls]] eqn:El.
  - by cbn in J.
  - cbn in E, J. destruct x; [done|]. cbn in E. by destruct ind.
  - cbn in E. by destruct (indent_line ind x).
Qed.

Definition wide (log : summary) : nat := Nat.max (longest (map number (checks_of log))) 8.
Definition wide_failures (log : summary) : nat := Nat.max (longest (map number (failures_of log))) 2.
Definition deep_ (log : summary) : text :=
  if (std_top_checks log =? 0)%Z then [] else ⌜"  [Deep checks: "⌝ ++ number (std_deep_checks log) ++ ⌜"]"⌝.
Definition table_row (log : summary) (ind : text) (label : text) (c f : Z) (behind : text) : text :=
  row ind (wide log) (wide_failures log) label (number c) (number f) behind.

Lemma longest_labels ind : longest (map (fun s => ind ++ s) labels) = length ind + 34.
Proof. unfold longest, labels. cbn [map foldr]. rewrite !app_length. cbn [length list_ascii_of_string]. lia. Qed.
Lemma padded_label ind s : length s <= 34 -> (ind ++ s) ++ replicate (length ind + 34 - length (ind ++ s)) " "%char ++ ⌜"  "⌝ = ind ++ left_aligned 34 s ++ ⌜"  "⌝.
Proof. intros Hs. unfold left_aligned. rewrite app_length, <- !app_assoc. do 3 f_equal. f_equal. lia. Qed.

Lemma rows_ok log ind0 ind1 :
  map (fun r => r ++ [nl]) (rows log ind0 ind1)
  = [table_row log (ind0 ++ ind1) ⌜"Standard Top Level Checks:"⌝ (std_top_checks log) (std_top_failures log) (deep_ log);
     table_row log (ind0 ++ ind1) ⌜"Standard Performance Checks:"⌝ (std_perf_checks log) (std_perf_failures log) [];
     table_row log (ind0 ++ ind1) ⌜"False Positive Checks:"⌝ (fp_checks log) (fp_failures log) [];
     table_row log (ind0 ++ ind1) ⌜"False Positive Performance Checks:"⌝ (fp_perf_checks log) (fp_perf_failures log) [];
     table_row log (ind0 ++ ind1) ⌜"False Negative Checks:"⌝ (fn_checks log) (fn_failures log) [];
     table_row log (ind0 ++ ind1) ⌜"False Negative Performance Checks:"⌝ (fn_perf_checks log) (fn_perf_failures log) []].
Proof.
  unfold rows. unfold pad_right. rewrite longest_labels. unfold pad_left. fold (wide log). fold (wide_failures log).
  set (ind := ind0 ++ ind1). unfold checks_of, failures_of, labels. cbn [map zip_with head from_option]. unfold id.
  assert (10 - Nat.min 8 (length (replicate (wide log - length (number (std_top_checks log))) " "%char ++ number (std_top_checks log))) = 2) as ->.
  { rewrite app_length, replicate_length. assert (8 <= wide log) by (unfold wide; lia). lia. }
  change (replicate 2 " "%char) with ⌜"  "⌝.
  unfold table_row, row, right_aligned, deep_.
  rewrite !padded_label by (cbn [length list_ascii_of_string]; lia).
  destruct (Z.eqb (std_top_checks log) 0); rewrite <- !app_assoc; reflexivity.
Qed.

Lemma rows_shown log ind0 ind1 :
  zip_with (fun r n => if (n =? 0)%Z then [] else r ++ [nl]) (rows log ind0 ind1) (checks_of log)
  = zip_with (fun r n => if (n =? 0)%Z then [] else r) (map (fun r => r ++ [nl]) (rows log ind0 ind1)) (checks_of log).
Proof. generalize (rows log ind0 ind1) (checks_of log). intros l. induction l as [|x l IH]; intros [|y k]; cbn; [done..|]. by rewrite IH. Qed.

Definition table_ (v : detail) (log : summary) (ind : text) : text :=
  concat (map (fun x : text * Z * Z * text => match x with (l, c, f, b) =>
                 if absent_checks v || negb (c =? 0)%Z then table_row log ind l c f b else [] end)
    [(⌜"Standard Top Level Checks:"⌝, std_top_checks log, std_top_failures log, deep_ log);
     (⌜"Standard Performance Checks:"⌝, std_perf_checks log, std_perf_failures log, []);
     (⌜"False Positive Checks:"⌝, fp_checks log, fp_failures log, []);
     (⌜"False Positive Performance Checks:"⌝, fp_perf_checks log, fp_perf_failures log, []);
     (⌜"False Negative Checks:"⌝, fn_checks log, fn_failures log, []);
     (⌜"False Negative Performance Checks:"⌝, fn_perf_checks log, fn_perf_failures log, [])]).

Lemma table_ok v log ind0 ind1 s :
  (if absent_checks v then s ++ concat (map (fun r => r ++ [nl]) (rows log ind0 ind1))
   else s ++ concat (zip_with (fun r n => if (n =? 0)%Z then [] else r ++ [nl]) (rows log ind0 ind1) (checks_of log)))
  = s ++ table_ v log (ind0 ++ ind1).
Proof.
  rewrite rows_shown, rows_ok. unfold table_, checks_of. destruct (absent_checks v); cbn [orb map zip_with]; [done|].
  by repeat case (Z.eqb_spec _ 0%Z); intros.
Qed.

Definition times_ (log : summary) (dur : option Z) : text :=
  match dur with Some d => time_line ⌜"Total Run"⌝ (stringify d) | None => [] end ++ time_line ⌜"Execution"⌝ (stringify (duration log)).
Lemma times_ok log dur : report_time log dur = times_ log dur.
Proof. unfold report_time, times_, time_line. destruct dur; cbn [app list_ascii_of_string]; rewrite <- ?app_assoc; reflexivity. Qed.

Definition heading_ (log : summary) (suffix : text) (dur : option Z) (v : detail) (ind0 : text) : text :=
  match name log with
  | [] => if timings v then times_ log dur else [nl]
  | _ => indented ind0 (name log ++ suffix) ++ [nl] ++ (if timings v then indented ind0 (times_ log dur) else [])
  end.
Definition critical_text_ (log : summary) : text :=
  if (s_critical log =? 0)%Z then []
  else [nl] ++ ⌜"******  Critical Failures:  "⌝ ++ number (s_critical log) ++ ⌜"  ******"⌝ ++ [nl; nl].
Definition messages_text_ (log : summary) (v : detail) (ind : text) : text :=
  if failure_messages_ v then match s_failure_messages log with [] => [] | m => [nl] ++ indented ind m end else [].

Lemma summarize_parts log suffix dur v ind0 ind1 :
  summarize_text log suffix dur v ind0 ind1
  = Ok (heading_ log suffix dur v ind0 ++ table_ v log (ind0 ++ ind1) ++ critical_text_ log ++ messages_text_ log v (ind0 ++ ind1)).
Proof.
  unfold summarize_text. rewrite indent__ok. cbn [rbind].
  assert (forall s, s <> [] ->
    (let s := if absent_checks v then s ++ concat (map (fun r => r ++ [nl]) (rows log ind0 ind1))
              else s ++ concat (zip_with (fun r n => if (n =? 0)%Z then [] else r ++ [nl]) (rows log ind0 ind1) (checks_of log)) in
     let s := if (s_critical log =? 0)%Z then s
              else s ++ [nl] ++ ⌜"******  Critical Failures:  "⌝ ++ number (s_critical log) ++ ⌜"  ******"⌝ ++ [nl; nl] in
     if failure_messages_ v then append_indented_ s (s_failure_messages log) (ind0 ++ ind1) else Ok s)
    = Ok (s ++ table_ v log (ind0 ++ ind1) ++ critical_text_ log ++ messages_text_ log v (ind0 ++ ind1))) as H.
  { intros s Hs. rewrite table_ok. cbv zeta.
    assert ((if (s_critical log =? 0)%Z then s ++ table_ v log (ind0 ++ ind1)
             else (s ++ table_ v log (ind0 ++ ind1)) ++ [nl] ++ ⌜"******  Critical Failures:  "⌝ ++ number (s_critical log) ++ ⌜"  ******"⌝ ++ [nl; nl])
            = s ++ table_ v log (ind0 ++ ind1) ++ critical_text_ log) as ->.
    { unfold critical_text_. destruct (s_critical log =? 0)%Z; rewrite <- ?app_assoc; [|done]. by rewrite app_nil_r. }
    unfold messages_text_. destruct (failure_messages_ v); [|by rewrite app_nil_r].
    rewrite append__ok. destruct (s_failure_messages log) as [|c m]; [by rewrite app_nil_r|].
    destruct s as [|x s]; [done|]. cbn [app]. f_equal. f_equal. by rewrite <- !app_assoc. }
  unfold heading_. destruct (name log) as [|c nm].
  - change (indented ind0 []) with (@nil ascii). destruct (timings v).
    + rewrite append__ok, times_ok. assert (times_ log dur <> []) as Ht by (unfold times_; destruct dur; done).
      destruct (times_ log dur) as [|x t] eqn:E; [done|]. cbn [rbind]. by apply H.
    + cbn [rbind]. by apply H.
  - assert (indented ind0 ((c :: nm) ++ suffix) <> []) as Hi by (by apply indented_ne). destruct (timings v).
    + rewrite append__ok, times_ok. assert (times_ log dur <> []) as Ht by (unfold times_; destruct dur; done).
      destruct (times_ log dur) as [|x t] eqn:E; [done|]. rewrite <- E. destruct (indented ind0 ((c :: nm) ++ suffix)) as [|y i] eqn:Ei; [done|].
      rewrite <- Ei. cbn [rbind]. rewrite H; [done|]. by rewrite Ei.
    + cbn [rbind]. rewrite app_nil_r. apply H. by destruct (indented ind0 ((c :: nm) ++ suffix)).
Qed.

Lemma summarize_ok log suffix dur v ind0 ind1 : exists w f,
  column 8 w (map (fun k => in_digits (snd (fst k))) (kinds log)) /\ column 2 f (map (fun k => in_digits (snd k)) (kinds log)) /\
  summarize_text log suffix dur v ind0 ind1
  = Ok (heading (name log) suffix ind0 (if timings v then Some (times (stringify <$> dur) (stringify (duration log))) else None)
        ++ table (absent_checks v) w f log (ind0 ++ ind1) ++ critical_text log
        ++ (if failure_messages_ v then messages_text (ind0 ++ ind1) (s_failure_messages log) else [])).
Proof.
  exists (wide log), (wide_failures log). split; [apply column_ok|]. split; [apply column_ok|]. rewrite summarize_parts. f_equal. f_equal; [|f_equal; [|f_equal]].
  - unfold heading_, heading. assert (times_ log dur = times (stringify <$> dur) (stringify (duration log))) as -> by (by destruct dur).
    destruct (name log) as [|c nm]; destruct (timings v); done.
  - unfold table_, table, kinds. cbn [map imap concat].
    assert (deep_ log = deep log) as -> by (unfold deep_, deep; case (Z.eqb_spec (std_top_checks log) 0); intros; [by rewrite decide_True|by rewrite decide_False]).
    assert (forall c, (c =? 0)%Z = bool_decide (c = 0%Z)) as E by (intros c; case (Z.eqb_spec c 0); intros; [by rewrite bool_decide_true|by rewrite bool_decide_false]).
    rewrite !E. done.
  - unfold critical_text_, critical_text. case (Z.eqb_spec (s_critical log) 0); intros; [by rewrite decide_True|by rewrite decide_False].
  - unfold messages_text_, messages_text. destruct (failure_messages_ v); [|done]. by destruct (s_failure_messages log).
Qed.
