From Coq Require Import Ascii String.
From stdpp Require Import list.
From Verif.Base Require Import Outcome ListLemmas.
From Verif.Text Require Import Model Spec Proofs.
From Verif.Log Require Import Model Spec SpecText Proofs ProofsText.
From Verif.Throws Require Import Model Spec.
Local Open Scope res_scope.
Local Open Scope list_scope.
Local Notation "⌜ s ⌝" := (list_ascii_of_string s%string).
Local Notation length := List.length.

Section checks.
  Context (isa : nat -> nat -> bool) (std_exception : nat).
  Local Notation check_exception_thrown := (check_exception_thrown isa std_exception).
  Implicit Types E : nat.

  (** What is logged last *)
  Definition last_event root E (e : ending) : event :=
    match e with
    | Returns => Fail ⌜"No exception thrown"⌝
    | Throws t =>
      if isa (cls t) E then Caught (postprocessed root (extracted isa std_exception E t))
      else if isa (cls t) std_exception then Fail (join [nl] [⌜"Unexpected exception thrown (caught by std::exception&):"⌝; ⌜""""⌝] ++ what t ++ [""""%char; nl])
      else Fail (⌜"Unknown exception thrown"⌝ ++ [nl])
    end.
  Definition returns E (e : ending) : bool := match e with Returns => false | Throws t => isa (cls t) E end.

  Lemma check_spec root E name description body e :
    check_exception_thrown root E name description body e =
      Ok (returns E e, Scope (join [nl] (List.filter given [description; ⌜"Expected Exception Type:"⌝; name])) (Check :: body ++ [last_event root E e])).
  Proof.
    unfold Model.check_exception_thrown. rewrite append_lines__spec. cbn [rbind]. unfold returns, last_event. destruct e as [|t]; [done|].
    destruct (isa (cls t) E); [done|]. destruct (isa (cls t) std_exception); [|done]. rewrite append_lines__spec. cbn [rbind]. done.
  Qed.
  Lemma returns_spec root E name description body e b ev : check_exception_thrown root E name description body e = Ok (b, ev) -> b = true <-> expected isa E e.
  Proof.
    rewrite check_spec. intros H. injection H as <- _. unfold returns, expected. destruct e as [|t]; split; try done.
    - by intros (t & ? & ?).
    - intros H. by exists t.
    - intros (t' & [= <-] & H). done.
  Qed.
  Lemma last_event_spec root E e :
    match last_event root E e with
    | Caught m => returns E e = true /\ exists t, e = Throws t /\ m = postprocessed root (extracted isa std_exception E t)
    | Fail _ => returns E e = false
    | _ => False
    end.
  Proof.
    unfold last_event, returns. destruct e as [|t]; [done|]. destruct (isa (cls t) E) eqn:H1; [split; [done|]; by exists t|]. by destruct (isa (cls t) std_exception).
  Qed.

  Lemma count_app p a b : count p (a ++ b) = count p a + count p b.
  Proof. unfold count. rewrite List.filter_app. apply app_length. Qed.
  Lemma any_app p a b : any p (a ++ b) = any p a || any p b.
  Proof. apply existsb_app. Qed.
  Lemma silent_counts body : silent body -> let l := concat (map leaves body) in
    any is_failure l = false /\ any is_critical l = false /\ count is_failure l = 0 /\ count is_critical l = 0 /\ count is_caught l = 0.
  Proof.
    unfold silent, any, count. cbv zeta. generalize (concat (map leaves body)) as l. clear body. intros l H. induction l as [|x l IH]; [done|].
    destruct (H x) as (H1 & H2 & H3); [left|]. destruct IH as (I1 & I2 & I3 & I4 & I5); [intros y Hy; apply H; by right|].
    cbn [existsb List.filter]. rewrite H1, H2, H3. done.
  Qed.
  Lemma in_check_app m es fs : in_check (m, es ++ fs) = in_check (m, es) ++ in_check (m, fs).
  Proof. unfold in_check. cbn [snd]. by rewrite map_app, concat_app. Qed.

  Lemma logged_spec md root E name description body e m es b :
    check_exception_thrown root E name description body e = Ok (b, Scope m es) -> silent body ->
    exists st, run_test md [(m, es)] = Ok st /\
      top_level_checks (res_of st) = 1 /\ critical_failures (res_of st) = 0 /\
      deep_checks (res_of st) = S (count is_check (concat (map leaves body))) /\
      failures (res_of st) = (if b then 0 else 1) /\
      top_level_failures (res_of st) = (match md with FalseNegative => if b then 1 else 0 | _ => if b then 0 else 1 end) /\
      length (caught_exception_messages (res_of st)) = (if b then 1 else 0).
  Proof.
    rewrite check_spec. intros H. injection H as <- <- <-. intros Hs. destruct (silent_counts body Hs) as (S1 & S2 & S3 & S4 & S5). cbv zeta in S1, S2, S3, S4, S5.
    set (m := join _ _). set (L := last_event root E e). destruct (run_test_spec md [(m, Check :: body ++ [L])]) as (st & Hst & _ & H). exists st. split; [exact Hst|]. clear Hst.
    cbv zeta in H. destruct H as (H1 & H2 & H3 & H4 & _ & H5 & _ & _ & _ & H6).
    assert (in_check (m, Check :: body ++ [L]) = Check :: concat (map leaves body) ++ [L]) as Ein.
    { change (Check :: body ++ [L]) with ([Check] ++ body ++ [L]). rewrite !in_check_app. unfold in_check at 1 2 3. cbn [snd map concat leaves app].
      assert (leaves L = [L]) as ->; [|done]. pose proof (last_event_spec root E e) as HL. fold L in HL. by destruct L. }
    assert (in_test [(m, Check :: body ++ [L])] = Check :: concat (map leaves body) ++ [L]) as Eit by (unfold in_test; cbn [map concat]; by rewrite app_nil_r).
    rewrite Eit in H3, H4, H5. change (Check :: concat (map leaves body) ++ [L]) with ([Check] ++ concat (map leaves body) ++ [L]) in *. rewrite !count_app in H3, H4, H5.
    rewrite S3 in H4. rewrite S4 in H3.
    assert (top_level_failures (res_of st) = if fails md (m, [Check] ++ body ++ [L]) then 1 else 0) as Htl.
    { rewrite H2. cbn [List.filter]. change (Check :: body ++ [L]) with ([Check] ++ body ++ [L]). by destruct (fails md (m, [Check] ++ body ++ [L])). }
    assert (length (caught_exception_messages (res_of st)) = count is_caught ([Check] ++ concat (map leaves body) ++ [L])) as Hc.
    { transitivity (length (map fst (caught_exception_messages (res_of st)))); [symmetry; apply map_length|]. rewrite H6. unfold labels. cbn [imap concat]. rewrite app_nil_r, repeat_length. by rewrite Ein. }
    rewrite !count_app, S5 in Hc. unfold fails in Htl. change ([Check] ++ body ++ [L]) with (Check :: body ++ [L]) in Htl. rewrite Ein in Htl. rewrite !any_app, S1, S2 in Htl.
    pose proof (last_event_spec root E e) as HL. fold L in HL. clearbody L. split; [by rewrite H1|].
    destruct L as [| |mm| | |mm|]; try done.
    - rewrite HL. split; [by rewrite H3|]. split; [rewrite H5; cbn; lia|]. split; [by rewrite H4|]. split; [rewrite Htl; by destruct md|]. by rewrite Hc.
    - destruct HL as [-> _]. split; [by rewrite H3|]. split; [rewrite H5; cbn; lia|]. split; [by rewrite H4|]. split; [rewrite Htl; by destruct md|]. by rewrite Hc.
  Qed.
End checks.

(** ** Messages *)
Lemma not_mentioned root m : ~ occurs root m -> postprocessed root m = m.
Proof. intros H. unfold postprocessed. by rewrite (proj2 (find_first_None root m) H). Qed.
Lemma mentioned root before c rest : first_at root (before ++ root ++ c :: rest) (length before) -> postprocessed root (before ++ root ++ c :: rest) = before ++ rest.
Proof.
  intros H. unfold postprocessed. rewrite (proj2 (find_first_Some root _ _) H). rewrite take_app. f_equal.
  rewrite app_assoc, (cons_middle c (before ++ root) rest), app_assoc. rewrite drop_app_alt; [done|]. rewrite !app_length. cbn. lia.
Qed.
Lemma absolute_first root before rest : absolute root -> "/"%char ∉ before -> first_at root (before ++ root ++ rest) (length before).
Proof.
  intros [r ->] Hb. split; [by exists before, rest|]. intros j (a & b & E & <-). destruct (decide (length before <= length a)) as [|Hl]; [done|]. exfalso. apply Hb.
  assert ((before ++ ("/"%char :: r) ++ rest) !! length a = Some "/"%char) as H by (rewrite E; by apply list_lookup_middle).
  rewrite lookup_app_l in H by lia. by apply elem_of_list_lookup_2 in H.
Qed.
Lemma once root before file end_ : absolute root -> "/"%char ∉ before ->
  postprocessed root (mentioning root [(before, file)] end_) = relative [(before, file)] end_.
Proof.
  intros Hr Hb. cbn [mentioning relative]. apply mentioned. by apply absolute_first.
Qed.
Lemma every root parts end_ before file : absolute root -> "/"%char ∉ before ->
  postprocessed root (mentioning root ((before, file) :: parts) end_) = before ++ file ++ mentioning root parts end_.
Proof. intros Hr Hb. cbn [mentioning]. apply mentioned. by apply absolute_first. Qed.
Section more.
  Context (isa : nat -> nat -> bool) (std_exception : nat).
  Lemma bases_pass root E F name description body e m es : (forall c d f, isa c d = true -> isa d f = true -> isa c f = true) -> isa E F = true ->
    check_exception_thrown isa std_exception root E name description body e = Ok (true, Scope m es) ->
    exists es', check_exception_thrown isa std_exception root F name description body e = Ok (true, Scope m es').
  Proof.
    intros Ht HEF. rewrite !check_spec. intros H. injection H as Hr <- _. eexists. do 3 f_equal. unfold returns in *. destruct e as [|t]; [done|]. by apply (Ht _ E).
  Qed.
  Lemma recorded_spec root E name description body t : isa (cls t) E = true ->
    exists m, check_exception_thrown isa std_exception root E name description body (Throws t) =
      Ok (true, Scope m (Check :: body ++ [Caught (postprocessed root (if isa E std_exception then what t else serialized t E))])).
  Proof. intros H. rewrite check_spec. unfold returns, last_event. rewrite H. by eexists. Qed.
End more.
