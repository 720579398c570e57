(** Proofs about [add_to_cmake]. *)
From Coq Require Import Ascii String.
From stdpp Require Import list sets sorting.
From Verif.Base Require Import Outcome Compare ListLemmas.
From Verif.Text Require Import Model Spec Proofs ProofsIndent.
From Verif.Edit Require Import Model Spec Proofs ModelSuite SpecSuite ProofsSuite.
Local Open Scope res_scope.
Local Notation "⌜ s ⌝" := (list_ascii_of_string s%string).
Local Notation length := List.length.

(** ** Sorting *)

Lemma std_sort_texts l : std_sort text_less l = Ok (sort_by text_compare l).
Proof.
  unfold std_sort. assert (foldr (insert_sorted text_less) [] l = sort_by text_compare l) as ->.
  { induction l as [|x l IH]; [done|]. cbn [foldr]. rewrite IH. change (sort_by text_compare (x :: l)) with (insert_by text_compare x (sort_by text_compare l)).
    generalize (sort_by text_compare l). intros m. induction m as [|y m IHm]; [done|]. cbn [insert_sorted insert_by]. unfold text_less at 1.
    destruct (text_compare y x); [done| |done]. by rewrite IHm. }
  assert (weak_order_on text_less l = true) as ->; [|done].
  unfold weak_order_on, text_less. apply andb_true_iff. split.
  - apply forallb_forall. intros x _. by rewrite (cmp_refl text_total).
  - apply forallb_forall. intros x _. apply forallb_forall. intros y _. apply forallb_forall. intros z _.
    destruct (text_compare x y) eqn:E1.
    + apply (cmp_eq text_total) in E1 as <-. rewrite (cmp_refl text_total). by destruct (text_compare x z), (text_compare z x).
    + destruct (text_compare y z) eqn:E2; [|by rewrite (cmp_trans text_total _ _ _ E1 E2)|done].
      apply (cmp_eq text_total) in E2 as <-. by rewrite E1.
    + apply (cmp_gt text_total) in E1. rewrite E1. cbn. by destruct (text_compare x z).
Qed.

Lemma texts_sorted l : StronglySorted at_most (sort_by text_compare l).
Proof.
  eapply sorted_impl; [|apply (sort_by_sorted text_total)]. intros v w H. unfold le_by in H. unfold at_most.
  destruct (text_compare v w) eqn:E; [left; by apply (cmp_eq text_total)|by right|]. by apply (cmp_gt text_total) in E.
Qed.

(** ** The entries *)

Lemma nonblank_app w d y : d <> " "%char -> find_nonblank (w ++ d :: y) = Some (length w - length (trimmed w)) /\ length (trimmed w) <= length w.
Proof.
  intros Hd. induction w as [|c w [IH IH2]]; cbn [app find_nonblank trimmed]; [by rewrite decide_False|].
  destruct (decide (c = " "%char)); [|split; [f_equal|]; cbn; lia]. rewrite IH. cbn. split; [f_equal|]; lia.
Qed.

Lemma trimmed_drop w : drop (length w - length (trimmed w)) w = trimmed w.
Proof.
  induction w as [|c w IH]; [done|]. cbn [trimmed]. destruct (decide (c = " "%char)); [|by rewrite Nat.sub_diag].
  assert (length (trimmed w) <= length w) by (by destruct (nonblank_app w "x"%char [])). cbn [length List.length].
  replace (S (List.length w) - length (trimmed w)) with (S (length w - length (trimmed w))) by lia. done.
Qed.

Lemma join_nl h ws : join [nl] (h :: ws) = h ++ match ws with [] => [] | _ => nl :: join [nl] ws end.
Proof. cbn. destruct ws; [by rewrite app_nil_r|done]. Qed.

(** The next line break, or the end of the list. *)
Lemma next_break a h ws y : nl ∉ h ->
  min_pos (find_from (a ++ join [nl] (h :: ws) ++ y) [nl] (length a)) (length a + length (join [nl] (h :: ws))) = length a + length h.
Proof.
  intros Hh. rewrite join_nl. destruct ws as [|w ws].
  - rewrite app_nil_r. destruct (find_from (a ++ h ++ y) [nl] (length a)) as [p|] eqn:E; [|done]. cbn [min_pos].
    enough (length a + length h <= p) by lia. apply find_from_Some in E as (p0&p1&p2&E&Hl&->&_). enough (length h <= length p1) by lia.
    apply app_inj_1 in E as [_ E]; [|done]. apply app_eq_inv in E as [(k&->&E)|(k&->&_)]; [|rewrite app_length; lia].
    destruct k as [|d k]; [rewrite app_nil_r; lia|]. cbn in E. injection E as <- _. exfalso. apply Hh. set_solver.
  - rewrite <- app_assoc. cbn [app]. rewrite (find_nl a h) by done. cbn [min_pos]. rewrite app_length. lia.
Qed.

Lemma entries_spec d y : d <> " "%char -> forall ws a h fuel es, Forall (fun w => nl ∉ w) (h :: ws) -> length ws < fuel ->
  entries_loop fuel (a ++ join [nl] (h :: ws) ++ d :: y) (length a + length (join [nl] (h :: ws))) (length a) es = Ok (es ++ map trimmed ws).
Proof.
  intros Hd. induction ws as [|w ws IH]; intros a h fuel es Hf Hlen; (destruct fuel as [|fuel]; [cbn in Hlen; lia|]); cbn [entries_loop].
  - apply Forall_cons in Hf as [Hh _]. pose proof (next_break a h [] (d :: y) Hh) as Hn. cbn [join] in *.
    destruct (find_from _ _ _) as [p|]; [|by rewrite app_nil_r]. cbn [min_pos] in Hn. rewrite decide_False by lia. by rewrite app_nil_r.
  - apply Forall_cons in Hf as [Hh Hf]. pose proof Hf as Hf'. apply Forall_cons in Hf' as [Hw Hf'].
    assert (a ++ join [nl] (h :: w :: ws) ++ d :: y = a ++ h ++ nl :: join [nl] (w :: ws) ++ d :: y) as ->
      by (rewrite (join_nl h); by rewrite <- !app_assoc).
    rewrite (find_nl a h) by done. rewrite (join_nl h). rewrite app_length. cbn [List.length].
    rewrite decide_True by lia.
    set (a' := a ++ h ++ [nl]).
    assert (length a' = length a + length h + 1) as Ha by (unfold a'; rewrite !app_length; cbn; lia).
    replace (length a + (length h + S (length (join [nl] (w :: ws))))) with (length a' + length (join [nl] (w :: ws))) by lia.
    rewrite <- Ha. replace (a ++ h ++ nl :: join [nl] (w :: ws) ++ d :: y) with (a' ++ join [nl] (w :: ws) ++ d :: y) by (unfold a'; by rewrite <- !app_assoc).
    rewrite next_break by done.
    unfold find_first_not_blank. rewrite decide_True by (rewrite app_length; lia). rewrite drop_app.
    assert (exists e z, join [nl] (w :: ws) ++ d :: y = w ++ e :: z /\ e <> " "%char) as (e&z&Ez&He).
    { rewrite (join_nl w). destruct ws; [rewrite app_nil_r; by exists d, y|]. rewrite <- app_assoc. by eexists nl, _. }
    rewrite Ez. destruct (nonblank_app w e z He) as [-> Hle]. cbn [fmap option_fmap option_map].
    rewrite decide_True by lia.
    assert (take (length a' + length w - (length a' + (length w - length (trimmed w)))) (drop (length a' + (length w - length (trimmed w))) (a' ++ w ++ e :: z)) = trimmed w) as ->.
    { rewrite <- drop_drop, drop_app, drop_app_le by lia. rewrite trimmed_drop.
      replace (length a' + length w - (length a' + (length w - length (trimmed w)))) with (length (trimmed w)) by lia. by rewrite take_app. }
    rewrite <- Ez. specialize (IH (a' ++ w) [] fuel (es ++ [trimmed w])).
    assert ((a' ++ w) ++ join [nl] ([] :: ws) ++ d :: y = a' ++ join [nl] (w :: ws) ++ d :: y) as E1
      by (rewrite !join_nl; by rewrite <- !app_assoc).
    assert (length (a' ++ w) + length (join [nl] ([] :: ws)) = length a' + length (join [nl] (w :: ws))) as E2
      by (rewrite !join_nl, !app_length; cbn; lia).
    rewrite E1, E2, app_length in IH. rewrite IH; [|by constructor; [set_solver|]|cbn in Hlen; lia]. by rewrite <- app_assoc.
Qed.

Lemma num_spaces_spec open n : indentation open n -> num_spaces open = n.
Proof.
  unfold indentation, num_spaces. intros [(a&b&->&Ha&->)|[Hn ->]].
  - change (⌜"("⌝) with ["("%char]. rewrite (proj2 (find_first_Some ["("%char] (a ++ ["("%char] ++ b) (length a))); [done|]. by apply first_at_char.
  - destruct (find_first _ open) eqn:E; [|done]. exfalso. apply Hn. apply find_first_Some in E as [E _]. apply occurs_char. by eexists.
Qed.

Lemma indentation_exists open : exists n, indentation open n.
Proof.
  destruct (decide ("("%char ∈ open)) as [H|H]; [|exists (length open); by right].
  destruct (first_or_none ["("%char] open) as [Hn|(a&b&->&Hf)]; [by rewrite occurs_char in Hn|].
  exists (length a + 1). left. exists a, b. split; [done|]. split; [|done]. by apply (first_at_char _ a b).
Qed.

Lemma add_to_cmake_spec l open close before first ws after entry n d y : cmake_list l open close before first ws after -> indentation open n ->
  close ++ after = d :: y -> d <> " "%char ->
  exists sorted, add_to_cmake l open close entry = Ok (before ++ open ++ first ++ entry_lines n sorted ++ close ++ after) /\
    sorted ≡ₚ entry :: map trimmed ws /\ StronglySorted at_most sorted.
Proof.
  intros [Hl Ho Hc Hf] Hn Hd Hb. unfold add_to_cmake. rewrite (proj2 (find_first_Some _ _ _) Ho).
  set (J := join [nl] (first :: ws)) in *. set (a := before ++ open).
  assert (length before + length open = length a) as -> by (unfold a; by rewrite app_length).
  assert (l = a ++ J ++ close ++ after) as Hl' by (unfold a; by rewrite <- app_assoc).
  rewrite Hl'. rewrite (find_from_at close a J after Hc). rewrite Hd. unfold J.
  rewrite entries_spec; [|done|done|].
  2: { rewrite !app_length. cbn. enough (length ws <= length (join [nl] (first :: ws))) by (cbn in *; lia).
       clear. revert first. induction ws as [|w ws IH]; intros h; [cbn; lia|]. rewrite join_nl, app_length. specialize (IH w). cbn in *. lia. }
  cbn [rbind]. rewrite std_sort_texts. cbn [rbind]. rewrite (num_spaces_spec open n Hn). apply Forall_cons in Hf as [Hfirst Hws].
  rewrite next_break by done. exists (sort_by text_compare (entry :: map trimmed ws)). split; [|split; [apply sort_by_perm|apply texts_sorted]].
  f_equal. set (sorted := sort_by text_compare _). change (concat _) with (entry_lines n sorted). rewrite join_nl.
  set (mid := match ws with [] => [] | _ => nl :: join [nl] ws end).
  replace (a ++ (first ++ mid) ++ d :: y) with ((a ++ first) ++ mid ++ d :: y) by (by rewrite <- !app_assoc).
  replace (length a + length first) with (length (a ++ first)) by (by rewrite app_length).
  replace (length a + length (first ++ mid) - length (a ++ first)) with (length mid) by (rewrite !app_length; lia).
  rewrite splice_app. unfold a. by rewrite <- !app_assoc.
Qed.

(** Where there is a list it is found. *)
Lemma cmake_list_exists l open close before rest : l = before ++ open ++ rest -> first_at open l (length before) -> occurs close rest ->
  exists first ws after, cmake_list l open close before first ws after.
Proof.
  intros Hl Ho Hc. destruct (first_or_none close rest) as [H|(x&after&->&H)]; [done|].
  pose proof (join_lines x) as E. pose proof (lines_no_nl x) as HF. destruct (lines x) as [|first ws] eqn:El; [by apply lines_ne in El|].
  exists first, ws, after. split; [by rewrite E|done|by rewrite E|done].
Qed.

Lemma cmake_none l open close entry : ~ (exists before rest, l = before ++ open ++ rest /\ first_at open l (length before) /\ occurs close rest) ->
  add_to_cmake l open close entry = Throw RuntimeError.
Proof.
  intros H. unfold add_to_cmake. destruct (first_or_none open l) as [Hn|(before&rest&->&Hf)]; [by rewrite (proj2 (find_first_None _ _) Hn)|].
  rewrite (find_first_at _ _ _ Hf). replace (length before + length open) with (length (before ++ open)) by (by rewrite app_length).
  rewrite app_assoc, find_from_app_None; [done|]. intros Hc. apply H. exists before, rest. done.
Qed.
