(** Proofs about failure output and the instability analysis. *)
From Coq Require Import Ascii NArith Decimal DecimalN.
From stdpp Require Import list sets list_numbers sorting.
From Verif.Base Require Import Outcome Compare ListLemmas.
From Verif.Text Require Import Model Spec Proofs ProofsCase ProofsIndent.
From Verif.Failure Require Import Model Spec.
Local Open Scope res_scope.

(** ** Numbers *)

Definition starts_no_digit (s : text) : Prop := match s with [] => True | c :: _ => digit c = None end.

Lemma take_digits_app d s : starts_no_digit s -> take_digits (digits d ++ s) = (d, s).
Proof.
  intros Hs. induction d as [|d IH|d IH|d IH|d IH|d IH|d IH|d IH|d IH|d IH|d IH];
    [|cbn; by rewrite IH..].
  destruct s as [|c s]; [done|]. cbn in *. by rewrite Hs.
Qed.

Lemma digits_inj d d' : digits d = digits d' -> d = d'.
Proof.
  intros E. pose proof (take_digits_app d [] I) as H1. pose proof (take_digits_app d' [] I) as H2.
  rewrite E in H1. rewrite H1 in H2. by injection H2.
Qed.

Lemma decimal_inj n n' : decimal n = decimal n' -> n = n'.
Proof.
  unfold decimal. intros E%digits_inj. rewrite <- (Unsigned.of_to n), <- (Unsigned.of_to n'). by f_equal.
Qed.

Lemma to_uint_not_nil n : N.to_uint n <> Nil.
Proof.
  intros E. destruct n as [|p]; [discriminate|].
  assert (N.of_uint (N.to_uint (N.pos p)) = N.pos p) as H by apply Unsigned.of_to.
  rewrite E in H. discriminate.
Qed.

Lemma digits_start d : d <> Nil -> exists c r, digits d = c :: r /\ is_space c = false.
Proof. destruct d; [done|..]; intros _; eexists _, _; split; done. Qed.

Lemma take_index_decimal n s : (n < 2 ^ 64)%N -> starts_no_digit s ->
  take_index ([" "%char] ++ decimal n ++ s) = Some (n, s).
Proof.
  intros Hn Hs. unfold take_index, decimal. cbn [app]. cbn [skip_space]. change (is_space " ") with true. cbn iota.
  destruct (digits_start _ (to_uint_not_nil n)) as (c&r&E&Hc).
  assert (skip_space (digits (N.to_uint n) ++ s) = digits (N.to_uint n) ++ s) as ->.
  { rewrite E. cbn [app skip_space]. by rewrite Hc. }
  rewrite take_digits_app by done. rewrite Unsigned.of_to.
  pose proof (to_uint_not_nil n). destruct (N.to_uint n); [done|..]; by rewrite (proj2 (N.ltb_lt _ _) Hn).
Qed.

(** ** Lines *)

Lemma take_line_app w s : nl ∉ w -> take_line (w ++ nl :: s) = (w, s).
Proof.
  induction w as [|c w IH]; intros H; cbn; [done|]. rewrite not_elem_of_cons in H. destruct H as [H1 H2].
  rewrite decide_False by done. by rewrite IH.
Qed.

Lemma join_snoc (w : text) ws : join [nl] (w :: ws) ++ [nl] = concat (map (fun v => v ++ [nl]) (w :: ws)).
Proof.
  revert w. induction ws as [|v ws IH]; intros w; cbn [map concat].
  - by rewrite app_nil_r.
  - cbn [map concat] in IH. change (join [nl] (w :: v :: ws)) with (w ++ [nl] ++ join [nl] (v :: ws)).
    rewrite <- !app_assoc. rewrite (IH v). by rewrite <- !app_assoc.
Qed.

Lemma pop_break_snoc m : pop_break (m ++ [nl]) = m.
Proof.
  unfold pop_break. rewrite last_snoc, decide_True by done. rewrite app_length. cbn [length].
  replace (length m + 1 - 1) with (length m) by lia. apply take_app.
Qed.

(** Reading lines up to the first dollar. *)
Lemma read_message_lines ws : forall fuel s ind acc,
  Forall (fun w => nl ∉ w) ws -> dollar ∉ ws -> length ws < fuel ->
  read_message fuel (concat (map (fun w => w ++ [nl]) ws) ++ dollar ++ nl :: s) ind acc =
  Ok (pop_break (acc ++ concat (map (fun w => indent_line ind w ++ [nl]) ws)), s).
Proof.
  induction ws as [|w ws IH]; intros fuel s ind acc Hnl Hd Hf; (destruct fuel as [|fuel]; [cbn in Hf; lia|]).
  - cbn [map concat app read_message dollar]. cbn [take_line]. rewrite decide_False by done. cbn [take_line].
    rewrite decide_True by done. rewrite decide_True by done. by rewrite app_nil_r.
  - apply Forall_cons in Hnl as [Hw Hws]. rewrite not_elem_of_cons in Hd. destruct Hd as [Hdw Hd]. cbn [length] in Hf.
    cbn [map concat]. rewrite <- !app_assoc. cbn [app read_message].
    set (rest := concat _ ++ _). destruct (w ++ nl :: rest) as [|c r] eqn:E; [by destruct w|].
    rewrite <- E. rewrite take_line_app by done. rewrite decide_False by done.
    rewrite indent_spec by lia. cbn [rbind]. rewrite indented_flat by done.
    unfold rest. rewrite IH by (done || lia). by rewrite <- !app_assoc.
Qed.

(** A message splits at its first line with a dollar. *)
Lemma first_dollar (ws : list text) : dollar ∈ ws -> exists ws1 ws2, ws = ws1 ++ dollar :: ws2 /\ dollar ∉ ws1.
Proof.
  induction ws as [|w ws IH]; intros H; [by apply elem_of_nil in H|].
  destruct (decide (w = dollar)) as [->|Hw]; [exists [], ws; split; [done|apply not_elem_of_nil]|].
  apply elem_of_cons in H as [H|H]; [done|].
  destruct (IH H) as (ws1&ws2&->&Hn). exists (w :: ws1), ws2. split; [done|]. rewrite not_elem_of_cons. done.
Qed.

Lemma message_lines m : m ++ [nl] = concat (map (fun w => w ++ [nl]) (lines m)).
Proof.
  rewrite <- (join_lines m) at 1. destruct (lines m) as [|w ws] eqn:E; [by apply lines_ne in E|]. apply join_snoc.
Qed.

Lemma concat_lines_length (ws : list text) : length ws <= length (concat (map (fun w => w ++ [nl]) ws)).
Proof. induction ws as [|w ws IH]; cbn [map concat length]; [done|]. rewrite !app_length. cbn. lia. Qed.

Lemma indented_lines ind ws : ws <> [] ->
  pop_break (concat (map (fun w => indent_line ind w ++ [nl]) ws)) = join [nl] (map (indent_line ind) ws).
Proof.
  intros H. destruct ws as [|w ws]; [done|].
  replace (concat (map (fun w => indent_line ind w ++ [nl]) (w :: ws))) with
    (concat (map (fun v => v ++ [nl]) (map (indent_line ind) (w :: ws)))) by (by rewrite map_map).
  change (map (indent_line ind) (w :: ws)) with (indent_line ind w :: map (indent_line ind) ws). rewrite <- join_snoc. apply pop_break_snoc.
Qed.

(** ** One failure *)

Lemma skip_word ws : skip_space (check_word ++ ws) = check_word ++ ws.
Proof. done. Qed.

Lemma take_word_check s : take_word (check_word ++ " "%char :: s) = (check_word, " "%char :: s).
Proof. done. Qed.

Lemma read_info_clean i s ind : (fst i < 2 ^ 64)%N -> clean_message (snd i) ->
  read_info (write_info i ++ s) ind = Ok (Some ((fst i, indented_message ind (snd i)), s)).
Proof.
  destruct i as [n m]. cbn [fst snd]. intros Hn Hm. unfold read_info, write_info. cbn [fst snd]. rewrite <- !app_assoc.
  rewrite skip_word.
  set (tl := decimal n ++ _).
  destruct (check_word ++ [" "%char] ++ tl) as [|c r] eqn:E; [done|]. rewrite <- E.
  cbn [app]. rewrite take_word_check, decide_True by done. unfold tl.
  change (" "%char :: decimal n ++ ?r) with ([" "%char] ++ decimal n ++ r).
  rewrite take_index_decimal by done.
  change (take_line ([nl] ++ ?r)) with (take_line ([] ++ nl :: r)). rewrite take_line_app by apply not_elem_of_nil. cbn [snd].
  rewrite (app_assoc m [nl]), message_lines.
  change (dollar ++ [nl] ++ s) with (dollar ++ nl :: s).
  rewrite read_message_lines; [|apply lines_no_nl|exact Hm|].
  - cbn [rbind app]. rewrite indented_lines by apply lines_ne. done.
  - rewrite app_length. pose proof (concat_lines_length (lines m)). lia.
Qed.

(** With a dollar line the message is cut short. *)
Lemma read_info_dollar i s ind ws1 ws2 : (fst i < 2 ^ 64)%N -> lines (snd i) = ws1 ++ dollar :: ws2 -> dollar ∉ ws1 ->
  exists s', read_info (write_info i ++ s) ind =
    Ok (Some ((fst i, pop_break (concat (map (fun w => indent_line ind w ++ [nl]) ws1))), s')).
Proof.
  destruct i as [n m]. cbn [fst snd]. intros Hn Hm H1. unfold read_info, write_info. cbn [fst snd]. rewrite <- !app_assoc.
  rewrite skip_word.
  set (tl := decimal n ++ _).
  destruct (check_word ++ [" "%char] ++ tl) as [|c r] eqn:E; [done|]. rewrite <- E.
  cbn [app]. rewrite take_word_check, decide_True by done. unfold tl.
  change (" "%char :: decimal n ++ ?r) with ([" "%char] ++ decimal n ++ r).
  rewrite take_index_decimal by done.
  change (take_line ([nl] ++ ?r)) with (take_line ([] ++ nl :: r)). rewrite take_line_app by apply not_elem_of_nil. cbn [snd].
  rewrite (app_assoc m [nl]), message_lines, Hm, map_app, concat_app. cbn [map concat].
  rewrite <- !app_assoc. change (dollar ++ [nl] ++ ?z) with (dollar ++ nl :: z).
  pose proof (lines_no_nl m) as Hno. rewrite Hm in Hno. apply Forall_app in Hno as [Hno _].
  rewrite read_message_lines; [|done|done|].
  - cbn [rbind app]. eauto.
  - rewrite !app_length. pose proof (concat_lines_length ws1). lia.
Qed.

(** ** Outputs *)

Lemma read_info_blank s ind : read_info (nl :: s) ind = read_info s ind.
Proof. done. Qed.

(** Reading the outputs one by one; [pre] is the blank left over from the one before. *)
Lemma read_output_app o : forall fuel pre s ind acc, (pre = [] \/ pre = [nl]) -> fits o -> clean o -> length o < fuel ->
  exists fuel' pre', read_output_loop fuel (pre ++ write_output o ++ s) ind acc =
    read_output_loop fuel' (pre' ++ s) ind (acc ++ map (fun i => (fst i, indented_message ind (snd i))) o) /\
    (pre' = [] \/ pre' = [nl]) /\ fuel = fuel' + length o.
Proof.
  induction o as [|i o IH]; intros fuel pre s ind acc Hpre Hfit Hcl Hf.
  - exists fuel, pre. cbn. rewrite app_nil_r. auto.
  - apply Forall_cons in Hfit as [Hi Hfit]. apply Forall_cons in Hcl as [Hc Hcl].
    destruct fuel as [|fuel]; [cbn in Hf; lia|]. cbn [length] in Hf.
    cbn [read_output_loop].
    assert (read_info (pre ++ write_output (i :: o) ++ s) ind =
      Ok (Some ((fst i, indented_message ind (snd i)), [nl] ++ write_output o ++ s))) as ->.
    { replace (write_output (i :: o) ++ s) with (write_info i ++ [nl] ++ write_output o ++ s)
        by (unfold write_output; cbn [map concat]; by rewrite <- !app_assoc).
      destruct Hpre as [->| ->]; cbn [app]; rewrite ?read_info_blank; by apply read_info_clean. }
    cbn [rbind]. destruct (IH fuel [nl] s ind (acc ++ [(fst i, indented_message ind (snd i))])) as (f'&pre'&E&Hp&Hf'); [auto|done|done|lia|].
    exists f', pre'. rewrite E. split; [|split; [done|cbn [length]; lia]].
    f_equal. cbn [map]. by rewrite <- app_assoc.
Qed.

Lemma write_output_length o : length o <= length (write_output o).
Proof.
  induction o as [|i o IH]; [done|]. unfold write_output in *. cbn [map concat length]. rewrite !app_length. cbn [length]. lia.
Qed.

Lemma read_write ind o : fits o -> clean o ->
  read_output (write_output o) ind = Ok (map (fun i => (fst i, indented_message ind (snd i))) o).
Proof.
  intros Hf Hc. unfold read_output. pose proof (write_output_length o).
  destruct (read_output_app o (S (length (write_output o))) [] [] ind []) as (f'&pre'&E&Hp&Hf'); [auto|done|done|lia|].
  rewrite app_nil_l, app_nil_r in E. rewrite E. rewrite app_nil_l, app_nil_r.
  destruct f' as [|f']; [lia|]. destruct Hp as [->| ->]; done.
Qed.

Lemma indented_message_no m : indented_message [] m = m.
Proof. by apply indented_no. Qed.

Lemma read_output_extends fuel : forall s ind acc r, read_output_loop fuel s ind acc = Ok r -> exists l, r = acc ++ l.
Proof.
  induction fuel as [|fuel IH]; intros s ind acc r; cbn; [done|].
  destruct (read_info s ind) as [[[i s']|]| | |]; cbn; try done.
  - intros [l ->]%IH. exists ([i] ++ l). by rewrite app_assoc.
  - intros [= <-]. exists []. by rewrite app_nil_r.
Qed.

Lemma join_app_dollar (ws1 ws2 : list text) : length (join [nl] ws1) < length (join [nl] (ws1 ++ dollar :: ws2)).
Proof.
  induction ws1 as [|w ws1 IH].
  - destruct ws2; cbn; lia.
  - destruct ws1 as [|v ws1].
    + cbn [app]. change (join [nl] (w :: dollar :: ws2)) with (w ++ [nl] ++ join [nl] (dollar :: ws2)).
      change (join [nl] [w]) with w. rewrite app_length. cbn. lia.
    + change (join [nl] ((w :: v :: ws1) ++ dollar :: ws2)) with (w ++ [nl] ++ join [nl] ((v :: ws1) ++ dollar :: ws2)).
      change (join [nl] (w :: v :: ws1)) with (w ++ [nl] ++ join [nl] (v :: ws1)). rewrite !app_length. lia.
Qed.

Lemma round_trip o : fits o -> (read_output (write_output o) [] = Ok o <-> clean o).
Proof.
  intros Hf. split.
  - intros E. destruct (decide (clean o)) as [Hc|Hc]; [done|exfalso].
    assert (exists o1 i o2, o = o1 ++ i :: o2 /\ clean o1 /\ ~ clean_message (snd i)) as (o1&i&o2&->&Hc1&Hi).
    { clear E Hf. induction o as [|i o IH]; [by destruct Hc; constructor|].
      destruct (decide (clean_message (snd i))) as [Hi|Hi].
      - destruct IH as (o1&j&o2&->&H1&H2).
        + intros H. apply Hc. by constructor.
        + exists (i :: o1), j, o2. split; [done|]. split; [by constructor|done].
      - exists [], i, o. split; [done|]. split; [constructor|done]. }
    apply Forall_app in Hf as [Hf1 Hf2]. apply Forall_cons in Hf2 as [Hfi Hf2].
    unfold read_output in E.
    replace (write_output (o1 ++ i :: o2)) with (write_output o1 ++ write_info i ++ [nl] ++ write_output o2) in E at 2
      by (unfold write_output; rewrite map_app, concat_app; cbn [map concat]; by rewrite <- !app_assoc).
    destruct (read_output_app o1 (S (length (write_output (o1 ++ i :: o2)))) [] (write_info i ++ [nl] ++ write_output o2) [] [])
      as (f'&pre'&E'&Hp&Hf'); [auto|done|done| |].
    { pose proof (write_output_length (o1 ++ i :: o2)) as HH. rewrite app_length in HH. lia. }
    rewrite app_nil_l in E'. rewrite E' in E. clear E'.
    assert (f' <> 0) as Hf0.
    { pose proof (write_output_length (o1 ++ i :: o2)) as HH. rewrite app_length in HH. lia. }
    destruct f' as [|f']; [done|]. cbn [read_output_loop] in E.
    assert (dollar ∈ lines (snd i)) as Hd by (destruct (decide (dollar ∈ lines (snd i))); done).
    destruct (first_dollar _ Hd) as (ws1&ws2&Hl&Hd1).
    destruct (read_info_dollar i ([nl] ++ write_output o2) [] ws1 ws2 Hfi Hl Hd1) as [s' Es].
    assert (read_info (pre' ++ write_info i ++ [nl] ++ write_output o2) [] =
      Ok (Some ((fst i, pop_break (concat (map (fun w => indent_line [] w ++ [nl]) ws1))), s'))) as Er.
    { destruct Hp as [->| ->]; cbn [app]; rewrite ?read_info_blank; exact Es. }
    rewrite Er in E. cbn [rbind] in E. apply read_output_extends in E as [l E].
    rewrite app_nil_l, <- app_assoc in E.
    assert (map (fun i => (fst i, indented_message [] (snd i))) o1 = o1) as Hid.
    { rewrite <- (map_id o1) at 2. apply map_ext. intros [n m]. cbn [fst snd]. by rewrite indented_message_no. }
    rewrite Hid in E. apply app_inv_head in E. cbn [app] in E. injection E as Ei _.
    assert (snd i = pop_break (concat (map (fun w => indent_line [] w ++ [nl]) ws1))) as Em by (rewrite Ei; done).
    pose proof (join_app_dollar ws1 ws2) as Hlt. rewrite <- Hl, join_lines in Hlt. rewrite Em in Hlt.
    destruct ws1 as [|w ws1]; [cbn in Hlt; lia|].
    rewrite indented_lines in Hlt by done.
    assert (map (indent_line []) (w :: ws1) = w :: ws1) as Hm.
    { rewrite <- (map_id (w :: ws1)) at 2. apply map_ext. by intros [|? ?]. }
    rewrite Hm in Hlt. lia.
  - intros Hc. rewrite read_write by done. f_equal.
    rewrite <- (map_id o) at 2. apply map_ext. intros [n m]. cbn [fst snd]. by rewrite indented_message_no.
Qed.

(** Indentation is injective. *)
Lemma indent_line_inj ind w v : indent_line ind w = indent_line ind v -> ind <> [] -> w = v.
Proof.
  intros E Hne. destruct w as [|c w], v as [|d v]; cbn in E; try done.
  - by destruct ind.
  - by destruct ind.
  - by apply app_inv_head in E.
Qed.

Lemma indented_message_inj ind m m' : nl ∉ ind -> ind <> [] -> indented_message ind m = indented_message ind m' -> m = m'.
Proof.
  intros Hnl Hne E. apply (f_equal lines) in E.
  change (lines (indented ind m) = lines (indented ind m')) in E. rewrite !lines_indented in E by done.
  rewrite <- (join_lines m), <- (join_lines m'). f_equal.
  revert E. generalize (lines m) (lines m'). induction l as [|w l IH]; intros [|v l'] E; cbn in E; try done.
  injection E as E1 E2. f_equal; [by eapply indent_line_inj|by apply IH].
Qed.

Definition tabbed (o : list (N * text)) : list (N * text) := map (fun i => (fst i, indented_message [tab] (snd i))) o.

Lemma tabbed_inj o o' : tabbed o = tabbed o' -> o = o'.
Proof.
  revert o'. induction o as [|[n m] o IH]; intros [|[n' m'] o'] E; cbn in E; try done.
  injection E as -> E1 E2. f_equal; [|by apply IH]. f_equal. eapply indented_message_inj; [| |exact E1]; [|done].
  set_solver.
Qed.

(** ** The analysis *)

Lemma output_total : total_cmp output_compare.
Proof. apply list_total, pair_total; [apply N_total|apply text_total]. Qed.

Lemma info_total : total_cmp info_compare.
Proof. apply pair_total; [apply N_total|apply text_total]. Qed.

Lemma mismatch_second l1 : forall l2 l, mismatch l1 l2 = (l, []) -> l1 = l2 \/ output_compare l2 l1 = Lt.
Proof.
  induction l1 as [|x l1 IH]; intros [|y l2] l; cbn; try done.
  - by left.
  - by right.
  - destruct (decide (x = y)) as [->|Hxy]; [|done]. intros [->|H]%IH; [by left|right].
    unfold output_compare in *. cbn. by rewrite (cmp_refl info_total).
Qed.

Lemma step_messages_ok current first ini msgs : output_compare current first = Lt ->
  exists m, step_messages current first ini msgs = Ok m.
Proof.
  intros H. unfold step_messages. destruct (mismatch current first) as [l1 [|j l2]] eqn:E.
  - apply mismatch_second in E as [->|E].
    + by rewrite (cmp_refl output_total) in H.
    + by apply (cmp_asym output_total) in H.
  - destruct l1 as [|i l1]; [|eauto]. destruct current; eauto.
Qed.

Lemma occurrences_cons {A} `{EqDecision A} (x y : A) l : occurrences x (y :: l) = (if decide (y = x) then 1 else 0) + occurrences x l.
Proof. unfold occurrences. rewrite filter_cons. by destruct (decide (y = x)). Qed.

Lemma occurrences_none {A} `{EqDecision A} (x : A) l : x ∉ l -> occurrences x l = 0.
Proof.
  induction l as [|y l IH]; intros H; [done|]. rewrite occurrences_cons. rewrite not_elem_of_cons in H. destruct H as [Hy H].
  rewrite decide_False by congruence. by rewrite IH.
Qed.

Lemma occurrences_app {A} `{EqDecision A} (x : A) l1 l2 : occurrences x (l1 ++ l2) = occurrences x l1 + occurrences x l2.
Proof. unfold occurrences. by rewrite filter_app, app_length. Qed.

Lemma occurrences_perm {A} `{EqDecision A} (x : A) l1 l2 : l1 ≡ₚ l2 -> occurrences x l1 = occurrences x l2.
Proof. intros H. unfold occurrences. apply Permutation_length, filter_Permutation, H. Qed.

(** The loop, with what has been seen already: [done_] are the outcomes whose runs are complete. *)
Lemma analyse_loop_spec rest : forall current run ini freqs msgs done_ prefix,
  StronglySorted (le_by (cmp := output_compare)) (current :: rest) ->
  Forall (fun d => output_compare d current = Lt) done_ -> NoDup done_ ->
  (forall o, o ∈ prefix <-> o ∈ current :: done_) ->
  occurrences current prefix = run ->
  freqs = map (fun o => occurrences o prefix) done_ ->
  (ini = true <-> done_ = []) ->
  exists r, analyse_loop current run ini freqs msgs rest = Ok r /\
    match r with
    | None => forall o, o ∈ prefix ++ rest -> o = current
    | Some (fr, _) =>
        (exists a, a ∈ prefix ++ rest /\ exists b, b ∈ prefix ++ rest /\ a <> b) /\
        exists os, NoDup os /\ (forall o, o ∈ os <-> o ∈ prefix ++ rest) /\ fr = map (fun o => occurrences o (prefix ++ rest)) os
    end.
Proof.
  induction rest as [|first rest IH]; intros current run ini freqs msgs done_ prefix Hs Hlt Hnd Hel Hrun Hfr Hini; cbn [analyse_loop].
  - rewrite app_nil_r. eexists. split; [done|]. destruct ini.
    + intros o Ho. apply Hel in Ho. rewrite (proj1 Hini eq_refl) in Ho. by apply elem_of_list_singleton in Ho.
    + assert (current ∉ done_) as Hcd.
      { intros Hin. rewrite Forall_forall in Hlt. apply Hlt in Hin. by rewrite (cmp_refl output_total) in Hin. }
      split.
      * destruct done_ as [|d done_]; [by discriminate (proj2 Hini eq_refl)|].
        exists current. split; [apply Hel; set_solver|]. exists d. split; [apply Hel; set_solver|]. set_solver.
      * exists (done_ ++ [current]). split; [apply NoDup_app; split; [done|]; split; [set_solver|apply NoDup_singleton]|]. split.
        -- intros o. rewrite Hel. set_solver.
        -- rewrite map_app. cbn. by rewrite Hfr, Hrun.
  - apply StronglySorted_inv in Hs as [Hs HF]. apply Forall_cons in HF as [Hcf HF].
    replace (prefix ++ first :: rest) with ((prefix ++ [first]) ++ rest) by (by rewrite <- app_assoc).
    destruct (decide (first = current)) as [->|Hne].
    + apply (IH current (S run) ini freqs msgs done_ (prefix ++ [current])); try done.
      * intros o. rewrite elem_of_app, elem_of_list_singleton, Hel. set_solver.
      * rewrite occurrences_app, occurrences_cons, Hrun, decide_True by done. cbn. lia.
      * rewrite Hfr. apply map_ext_in. intros o Ho. rewrite occurrences_app, (occurrences_none o [current]); [lia|].
        intros Hin%elem_of_list_singleton. subst o. apply elem_of_list_In in Ho. rewrite Forall_forall in Hlt. apply Hlt in Ho.
        by rewrite (cmp_refl output_total) in Ho.
    + assert (output_compare current first = Lt) as Hlt1.
      { unfold le_by in Hcf. destruct (output_compare first current) eqn:E; [by apply (cmp_eq output_total) in E|done|].
        by apply (cmp_gt output_total) in E. }
      destruct (step_messages_ok current first ini msgs Hlt1) as [m ->]. cbn [rbind].
      assert (Forall (fun d => output_compare d first = Lt) (done_ ++ [current])) as Hlt2.
      { apply Forall_app. split; [|by repeat constructor].
        eapply Forall_impl; [exact Hlt|]. cbn. intros d Hd. by eapply (cmp_trans output_total). }
      assert (current ∉ done_) as Hcd.
      { intros Hin. rewrite Forall_forall in Hlt. apply Hlt in Hin. by rewrite (cmp_refl output_total) in Hin. }
      assert (first ∉ prefix) as Hfp.
      { intros Hin. apply Hel in Hin. assert (first ∈ done_ ++ [current]) as Hin2 by set_solver.
        rewrite Forall_forall in Hlt2. apply Hlt2 in Hin2. by rewrite (cmp_refl output_total) in Hin2. }
      destruct (IH first 1 false (freqs ++ [run]) m (done_ ++ [current]) (prefix ++ [first])) as (r&Hr1&Hr2); try done.
      * apply NoDup_app. split; [done|]. split; [set_solver|apply NoDup_singleton].
      * intros o. rewrite elem_of_app, elem_of_list_singleton, Hel. set_solver.
      * rewrite occurrences_app, occurrences_none by done. rewrite occurrences_cons, decide_True by done. done.
      * rewrite Hfr, map_app. cbn [map].
        assert (forall o, o ∈ done_ ++ [current] -> occurrences o (prefix ++ [first]) = occurrences o prefix) as Ho.
        { intros o Ho. rewrite occurrences_app, (occurrences_none o [first]); [lia|].
          intros Hin%elem_of_list_singleton. subst o. apply Hfp, Hel. set_solver. }
        f_equal.
        -- apply map_ext_in. intros o Hin. symmetry. apply Ho. apply elem_of_list_In in Hin. set_solver.
        -- rewrite Ho by set_solver. by rewrite Hrun.
      * split; [done|]. intros HH. by destruct done_.
      * exists r. split; [done|]. destruct r as [[fr ms]|]; [done|]. intros o Ho. exfalso.
        assert (current = first) as HH; [|done]. apply Hr2. apply elem_of_app. left. apply elem_of_app. left. apply Hel. set_solver.
Qed.

Lemma not_unstable (outs : list (list (N * text))) : ~ unstable outs <-> (forall a b, a ∈ outs -> b ∈ outs -> a = b).
Proof.
  split.
  - intros H a b Ha Hb. destruct (decide (a = b)) as [|Hab]; [done|]. destruct H. by exists a, b.
  - intros H (a&b&Ha&Hb&Hab). by apply Hab, H.
Qed.

Lemma analyse_output_spec outs : exists r, analyse_output (sort_by output_compare outs) = Ok r /\
  match r with
  | None => ~ unstable outs
  | Some (fr, _) => unstable outs /\ frequencies_of fr outs
  end.
Proof.
  pose proof (sort_by_perm (cmp := output_compare) outs) as Hp.
  pose proof (sort_by_sorted output_total outs) as Hs.
  set (so := sort_by output_compare outs) in *.
  assert (forall x, x ∈ so <-> x ∈ outs) as Hel by (intros x; by rewrite Hp).
  unfold analyse_output. destruct so as [|o [|o2 rest]] eqn:E.
  - eexists. split; [done|]. intros (a&b&Ha&_). by apply Hel, elem_of_nil in Ha.
  - eexists. split; [done|]. intros (a&b&Ha&Hb&Hab). apply Hel, elem_of_list_singleton in Ha. apply Hel, elem_of_list_singleton in Hb. congruence.
  - destruct (analyse_loop_spec (o2 :: rest) o 1 true [] [] [] [o]) as (r&Hr1&Hr2); try done.
    + constructor.
    + by rewrite occurrences_cons, decide_True.
    + exists r. split; [done|]. cbn [app] in Hr2. destruct r as [[fr ms]|].
      * destruct Hr2 as [(a&Ha&b&Hb&Hab) (os&H1&H2&H3)]. split.
        -- exists a, b. rewrite <- !Hel. done.
        -- exists os. split; [done|]. split; [intros x; by rewrite H2, Hel|]. rewrite H3. apply map_ext. intros x. by apply occurrences_perm.
      * apply not_unstable. intros a b Ha Hb. rewrite <- Hel in Ha, Hb. rewrite (Hr2 a Ha), (Hr2 b Hb). done.
Qed.

(** The frequencies of the outcomes add up to the number of runs. *)
Lemma occurrences_sum (os outs : list (list (N * text))) : NoDup os -> (forall o, o ∈ outs -> o ∈ os) ->
  list_sum (map (fun o => occurrences o outs) os) = length outs.
Proof.
  intros Hnd. induction outs as [|x outs IH]; intros Hel.
  - cbn [length]. clear. induction os; cbn; done.
  - cbn [length]. rewrite <- IH by set_solver.
    assert (x ∈ os) as Hx by set_solver. clear IH Hel. induction os as [|o os IH]; [by apply elem_of_nil in Hx|].
    apply NoDup_cons in Hnd as [Ho Hnd]. cbn [map list_sum foldr]. rewrite occurrences_cons.
    apply elem_of_cons in Hx as [->|Hx].
    + rewrite decide_True by done.
      assert (map (fun o0 => occurrences o0 (o :: outs)) os = map (fun o0 => occurrences o0 outs) os) as ->; [|cbn; unfold list_sum; lia].
      apply map_ext_in. intros y Hy. rewrite occurrences_cons, decide_False; [done|]. intros ->. apply Ho. by apply elem_of_list_In.
    + rewrite decide_False; [|intros ->; done]. unfold list_sum in IH. rewrite IH by done. cbn. lia.
Qed.

Lemma frequencies_sum fr outs : frequencies_of fr outs -> list_sum fr = length outs.
Proof. intros (os&H1&H2&->). apply occurrences_sum; [done|]. intros o. apply H2. Qed.

(** ** Groups of files *)

Lemma path_total : total_cmp path_compare.
Proof. apply list_total, text_total. Qed.

Fixpoint read_all (g : list (list text * text)) : res (list (list (N * text))) :=
  match g with
  | [] => Ok []
  | f :: g' => let? o := read_output (snd f) [tab] in let? os := read_all g' in Ok (o :: os)
  end.

Lemma analyse_group_eq g : analyse_group g =
  (let? outs := read_all g in
   let? r := analyse_output (sort_by output_compare outs) in
   Ok (match r with
       | Some r => Some (match g with f :: _ => source_of (fst f) | [] => [] end, r)
       | None => None
       end)).
Proof. done. Qed.

Lemma read_all_ok (g : list (list text * list (N * text))) : Forall (fun f => fits (snd f) /\ clean (snd f)) g ->
  read_all (map (fun f => (fst f, write_output (snd f))) g) = Ok (map (fun f => tabbed (snd f)) g).
Proof.
  induction 1 as [|f g [H1 H2] _ IH]; [done|]. cbn [map read_all snd]. rewrite read_write by done. cbn [rbind]. by rewrite IH.
Qed.

Lemma unstable_tabbed outs : unstable (map tabbed outs) <-> unstable outs.
Proof.
  split.
  - intros (a&b&Ha&Hb&Hab). apply elem_of_list_fmap in Ha as (a'&->&Ha). apply elem_of_list_fmap in Hb as (b'&->&Hb).
    exists a', b'. split; [done|]. split; [done|]. congruence.
  - intros (a&b&Ha&Hb&Hab). exists (tabbed a), (tabbed b). split; [by apply elem_of_list_fmap_1|]. split; [by apply elem_of_list_fmap_1|].
    by intros ?%tabbed_inj.
Qed.

Lemma occurrences_tabbed o outs : occurrences (tabbed o) (map tabbed outs) = occurrences o outs.
Proof.
  induction outs as [|x outs IH]; [done|]. cbn [map]. rewrite !occurrences_cons, IH. f_equal.
  destruct (decide (x = o)) as [->|Hx]; [by rewrite decide_True|]. rewrite decide_False; [done|]. by intros ?%tabbed_inj.
Qed.

Lemma frequencies_tabbed fr outs : frequencies_of fr (map tabbed outs) -> frequencies_of fr outs.
Proof.
  intros (os&H1&H2&H3).
  assert (exists os', os = map tabbed os') as [os' ->].
  { assert (forall o, o ∈ os -> exists o', o = tabbed o') as H.
    { intros o Ho. apply H2 in Ho. apply elem_of_list_fmap in Ho as (o'&->&_). eauto. }
    clear -H. induction os as [|o os IH]; [by exists []|].
    destruct IH as [os' ->]; [intros x Hx; apply H; set_solver|]. destruct (H o) as [o' ->]; [set_solver|]. by exists (o' :: os'). }
  exists os'. split; [by apply NoDup_fmap_1 in H1|]. split.
  - intros o. split.
    + intros Ho. assert (tabbed o ∈ map tabbed outs) as HH by (apply H2; by apply elem_of_list_fmap_1).
      apply elem_of_list_fmap in HH as (o'&E&Ho'). apply tabbed_inj in E as ->. done.
    + intros Ho. assert (tabbed o ∈ map tabbed os') as HH by (apply H2; by apply elem_of_list_fmap_1).
      apply elem_of_list_fmap in HH as (o'&E&Ho'). apply tabbed_inj in E as ->. done.
  - rewrite H3, map_map. apply map_ext. intros o. apply occurrences_tabbed.
Qed.

Lemma frequencies_perm fr l1 l2 : l1 ≡ₚ l2 -> frequencies_of fr l1 -> frequencies_of fr l2.
Proof.
  intros Hp (os&H1&H2&H3). exists os. split; [done|]. split; [intros o; by rewrite H2, Hp|].
  rewrite H3. apply map_ext. intros o. by apply occurrences_perm.
Qed.

Lemma unstable_perm l1 l2 : l1 ≡ₚ l2 -> unstable l1 -> unstable l2.
Proof. intros Hp (a&b&Ha&Hb&Hab). exists a, b. rewrite <- Hp. done. Qed.

(** One group. *)
Lemma analyse_group_spec (g : list (list text * list (N * text))) : Forall (fun f => fits (snd f) /\ clean (snd f)) g ->
  exists r, analyse_group (map (fun f => (fst f, write_output (snd f))) g) = Ok r /\
  match r with
  | None => ~ unstable (map snd g)
  | Some (src, (fr, _)) => unstable (map snd g) /\ frequencies_of fr (map snd g) /\
      match g with f :: _ => src = source_of (fst f) | [] => True end
  end.
Proof.
  intros H. rewrite analyse_group_eq, read_all_ok by done. cbn [rbind].
  destruct (analyse_output_spec (map (fun f => tabbed (snd f)) g)) as (r&->&Hr). cbn [rbind].
  eexists. split; [done|]. assert (map (fun f => tabbed (snd f)) g = map tabbed (map snd g)) as E by (by rewrite map_map).
  rewrite E in Hr. destruct r as [[fr ms]|].
  - destruct Hr as [H1 H2]. split; [by apply unstable_tabbed|]. split; [by apply frequencies_tabbed|]. by destruct g.
  - by rewrite <- unstable_tabbed.
Qed.

(** ** The whole analysis *)

Lemma file_compare_trans f g h : file_compare f g = Lt -> file_compare g h = Lt -> file_compare f h = Lt.
Proof. apply (cmp_trans path_total). Qed.

(** Sorting files with distinct paths. *)
Definition file_lt (f g : list text * text) : Prop := file_compare f g = Lt.

Lemma insert_file_sorted x l : StronglySorted file_lt l -> fst x ∉ map fst l -> StronglySorted file_lt (insert_by file_compare x l).
Proof.
  induction 1 as [|y l Hs IH HF]; intros Hx; cbn; [repeat constructor|].
  cbn [map] in Hx. rewrite not_elem_of_cons in Hx. destruct Hx as [Hxy Hx].
  destruct (file_compare y x) eqn:E.
  - unfold file_compare in E. apply (cmp_eq path_total) in E. congruence.
  - constructor; [by apply IH|]. rewrite insert_by_perm. by constructor.
  - constructor; [by constructor|]. unfold file_compare in E. apply (cmp_gt path_total) in E.
    constructor; [done|]. eapply Forall_impl; [exact HF|]. cbn. intros z Hz. by eapply file_compare_trans.
Qed.

Lemma sort_files_sorted l : NoDup (map fst l) -> StronglySorted file_lt (sort_by file_compare l).
Proof.
  induction l as [|x l IH]; intros Hd; cbn; [constructor|]. cbn [map] in Hd. apply NoDup_cons in Hd as [Hx Hd].
  apply insert_file_sorted; [by apply IH|]. fold (sort_by file_compare l). rewrite sort_by_perm. done.
Qed.

#[local] Instance file_lt_antisym : AntiSymm (=) file_lt.
Proof. intros x y H1 H2. exfalso. by apply (cmp_asym path_total) in H1. Qed.

Lemma sorted_files_unique l1 l2 : StronglySorted file_lt l1 -> StronglySorted file_lt l2 -> l1 ≡ₚ l2 -> l1 = l2.
Proof. apply (StronglySorted_unique file_lt). Qed.

Lemma elem_of_concat {A} (x : A) ls : x ∈ concat ls <-> exists l, x ∈ l /\ l ∈ ls.
Proof.
  rewrite elem_of_list_In, in_concat. split; intros (l&H1&H2); exists l; rewrite ?elem_of_list_In in *; done.
Qed.

Lemma StronglySorted_app {A} (R : A -> A -> Prop) l1 l2 : (forall x y, x ∈ l1 -> y ∈ l2 -> R x y) ->
  StronglySorted R l1 -> StronglySorted R l2 -> StronglySorted R (l1 ++ l2).
Proof.
  intros H H1 H2. induction H1 as [|x l1 H1 IH HF]; cbn; [done|]. constructor.
  - apply IH. intros y z Hy Hz. apply H; [set_solver|done].
  - apply Forall_app. split; [done|]. apply Forall_forall. intros y Hy. apply H; [set_solver|done].
Qed.

Lemma StronglySorted_concat {A B} (R : A -> A -> Prop) (S : B -> B -> Prop) (f : B -> list A) bs :
  StronglySorted S bs -> (forall b, b ∈ bs -> StronglySorted R (f b)) ->
  (forall b b' x y, S b b' -> x ∈ f b -> y ∈ f b' -> R x y) -> StronglySorted R (concat (map f bs)).
Proof.
  intros Hs H1 H2. induction Hs as [|b bs Hs IH HF]; cbn; [constructor|].
  apply StronglySorted_app.
  - intros x y Hx Hy. apply elem_of_concat in Hy as (l&Hy&Hl). apply elem_of_list_fmap in Hl as (b'&->&Hb').
    rewrite Forall_forall in HF. eapply H2; [by apply HF|done|done].
  - apply H1. set_solver.
  - apply IH. intros b' Hb'. apply H1. set_solver.
Qed.

(** The files of a test, in sorted order. *)
Definition test_files (trials : nat) (outs : text * text * text -> nat -> list (N * text)) (t : text * text * text) :
    list (list text * text) :=
  map (fun k => (file_of t k, write_output (outs t k))) (seq 0 trials).

Lemma file_of_inj t k k' : file_of t k = file_of t k' -> k = k'.
Proof.
  unfold file_of, analysis_file. intros E. apply app_inv_head in E. injection E as E.
  apply app_inv_tail in E. apply decimal_inj in E. lia.
Qed.

Lemma file_of_dir t k : file_of t k = dir_of t ++ [txt_output ++ decimal (N.of_nat k) ++ txt_ext].
Proof. done. Qed.

Lemma file_of_inj_dir t t' k k' : file_of t k = file_of t' k' -> dir_of t = dir_of t'.
Proof. rewrite !file_of_dir. intros E. by apply app_inj_tail in E as [E _]. Qed.

Lemma test_files_NoDup trials outs t : NoDup (map fst (test_files trials outs t)).
Proof.
  unfold test_files. rewrite map_map. cbn [fst]. apply NoDup_fmap_2_strong; [|apply NoDup_seq].
  intros k k' _ _. apply file_of_inj.
Qed.

Lemma all_files_NoDup tests trials outs : NoDup (map dir_of tests) -> NoDup (map fst (all_files tests trials outs)).
Proof.
  induction tests as [|t tests IH]; intros Hd; [constructor|]. cbn [map] in Hd. apply NoDup_cons in Hd as [Ht Hd].
  unfold all_files. cbn [map concat]. rewrite map_app. apply NoDup_app. split; [apply test_files_NoDup|]. split; [|by apply IH].
  intros p Hp Hp'. apply elem_of_list_fmap in Hp as (f&->&Hf). apply elem_of_list_fmap in Hf as (k&->&_). cbn [fst] in Hp'.
  apply elem_of_list_fmap in Hp' as (f'&E&Hf'). apply elem_of_concat in Hf' as (l&Hf'&Hl).
  apply elem_of_list_fmap in Hl as (t'&->&Ht'). apply elem_of_list_fmap in Hf' as (k'&->&_). cbn [fst] in E.
  apply Ht. rewrite (file_of_inj_dir _ _ _ _ E). by apply elem_of_list_fmap_1.
Qed.

(** Tests sorted by their folders. *)
Definition test_compare (t t' : text * text * text) : comparison := path_compare (dir_of t) (dir_of t').
Definition test_lt (t t' : text * text * text) : Prop := test_compare t t' = Lt.

Lemma insert_test_sorted x l : StronglySorted test_lt l -> dir_of x ∉ map dir_of l -> StronglySorted test_lt (insert_by test_compare x l).
Proof.
  induction 1 as [|y l Hs IH HF]; intros Hx; cbn [insert_by]; [repeat constructor|].
  cbn [map] in Hx. rewrite not_elem_of_cons in Hx. destruct Hx as [Hxy Hx].
  destruct (test_compare y x) eqn:E.
  - unfold test_compare in E. apply (cmp_eq path_total) in E. congruence.
  - constructor; [by apply IH|]. rewrite insert_by_perm. by constructor.
  - constructor; [by constructor|]. unfold test_compare in E. apply (cmp_gt path_total) in E.
    constructor; [done|]. eapply Forall_impl; [exact HF|]. cbn. intros z Hz. by eapply (cmp_trans path_total).
Qed.

Lemma sort_tests_sorted l : NoDup (map dir_of l) -> StronglySorted test_lt (sort_by test_compare l).
Proof.
  induction l as [|x l IH]; intros Hd; cbn [sort_by foldr]; [constructor|]. cbn [map] in Hd. apply NoDup_cons in Hd as [Hx Hd].
  apply insert_test_sorted; [by apply IH|]. fold (sort_by test_compare l). rewrite sort_by_perm. done.
Qed.

Lemma sorted_all_files tests trials outs files : NoDup (map dir_of tests) -> files ≡ₚ all_files tests trials outs ->
  sort_by file_compare files =
  concat (map (fun t => sort_by file_compare (test_files trials outs t)) (sort_by test_compare tests)).
Proof.
  intros Hd Hp. apply sorted_files_unique.
  - apply sort_files_sorted. rewrite Hp. by apply all_files_NoDup.
  - eapply StronglySorted_concat; [by apply sort_tests_sorted| |].
    + intros t _. apply sort_files_sorted, test_files_NoDup.
    + intros t t' x y Ht Hx Hy. rewrite sort_by_perm in Hx, Hy.
      apply elem_of_list_fmap in Hx as (k&->&_). apply elem_of_list_fmap in Hy as (k'&->&_).
      unfold file_lt, file_compare, path_compare. cbn [fst]. rewrite !file_of_dir. by apply list_compare_app_lt.
  - rewrite sort_by_perm, Hp. unfold all_files.
    rewrite <- (sort_by_perm (cmp := test_compare) tests) at 1.
    generalize (sort_by test_compare tests). intros l. induction l as [|t l IH]; cbn [map concat]; [done|].
    rewrite IH. by rewrite sort_by_perm.
Qed.

Lemma groups_concat {B} trials (f : B -> list (list text * text)) bs : trials <> 0 -> (forall b, b ∈ bs -> length (f b) = trials) ->
  groups trials (concat (map f bs)) = map f bs /\ length (concat (map f bs)) = length bs * trials.
Proof.
  intros H0 Hl.
  assert (length (concat (map f bs)) = length bs * trials) as Hlen.
  { induction bs as [|b bs IH]; [done|]. cbn [map concat]. rewrite app_length, IH by set_solver. rewrite Hl by set_solver. cbn. lia. }
  split; [|done]. unfold groups. rewrite Hlen, Nat.div_mul by done. clear Hlen.
  induction bs as [|b bs IH]; [done|]. cbn [length seq map concat]. f_equal.
  - cbn [Nat.mul]. rewrite drop_0. rewrite <- (Hl b) at 1 by set_solver. apply take_app.
  - etransitivity; [|apply IH; set_solver]. rewrite <- seq_shift, map_map. apply map_ext. intros k.
    assert (S k * trials = length (f b) + k * trials) as -> by (rewrite Hl by set_solver; lia).
    by rewrite <- drop_drop, drop_app.
Qed.

Lemma analyse_groups_spec {B} (f : B -> list (list text * list (N * text))) bs :
  (forall b, b ∈ bs -> f b <> [] /\ Forall (fun x => fits (snd x) /\ clean (snd x)) (f b)) ->
  exists rs us, analyse_groups (map (fun b => map (fun x => (fst x, write_output (snd x))) (f b)) bs) = Ok rs /\
    us `sublist_of` bs /\ (forall b, b ∈ bs -> (b ∈ us -> unstable (map snd (f b)))) /\
    (forall b, b ∈ bs -> unstable (map snd (f b)) -> b ∈ us) /\
    Forall2 (fun b r => (exists x, x ∈ f b /\ fst r = source_of (fst x)) /\ frequencies_of (fst (snd r)) (map snd (f b))) us rs.
Proof.
  induction bs as [|b bs IH]; intros H.
  - exists [], []. split; [done|]. split; [done|]. split; [intros b Hb; set_solver|]. split; [intros b Hb; set_solver|constructor].
  - destruct IH as (rs&us&E&H1&H2&H3&H4); [intros b' Hb'; apply H; set_solver|]. cbn [map analyse_groups].
    destruct (H b) as [Hne HF]; [set_solver|].
    destruct (analyse_group_spec (f b) HF) as (r&Er&Hr). rewrite Er. cbn [rbind]. rewrite E. cbn [rbind].
    destruct r as [[src [fr ms]]|].
    + destruct Hr as (Hu&Hfr&Hsrc). exists ((src, (fr, ms)) :: rs), (b :: us). split; [done|]. split; [by constructor|].
      split; [|split].
      * intros b' Hb' Hb2. apply elem_of_cons in Hb2 as [->|Hb2]; [done|]. apply H2; [|done].
        by eapply elem_of_submseteq; [|apply sublist_submseteq].
      * intros b' Hb' Hub. apply elem_of_cons in Hb' as [->|Hb']; [set_solver|]. apply elem_of_cons. right. by apply H3.
      * constructor; [|done]. cbn [fst snd]. split; [|done]. destruct (f b) as [|x l]; [done|]. exists x. split; [set_solver|done].
    + exists rs, us. split; [done|]. split; [by constructor|]. split; [|split; [|done]].
      * intros b' Hb' Hb2. apply H2; [|done]. by eapply elem_of_submseteq; [|apply sublist_submseteq].
      * intros b' Hb' Hub. apply elem_of_cons in Hb' as [->|Hb']; [done|]. by apply H3.
Qed.

Lemma runs_perm trials outs t l : l ≡ₚ map (fun k => (file_of t k, outs t k)) (seq 0 trials) ->
  map snd l ≡ₚ runs trials outs t.
Proof. intros ->. rewrite map_map. done. Qed.

(** The sorted files of a test are those of its runs in some order. *)
Lemma test_files_sorted trials outs t : exists l,
  sort_by file_compare (test_files trials outs t) = map (fun x => (fst x, write_output (snd x))) l /\
  l ≡ₚ map (fun k => (file_of t k, outs t k)) (seq 0 trials).
Proof.
  pose proof (sort_by_perm (cmp := file_compare) (test_files trials outs t)) as Hp.
  assert (test_files trials outs t =
    map (fun x => (fst x, write_output (snd x))) (map (fun k => (file_of t k, outs t k)) (seq 0 trials))) as E.
  { unfold test_files. by rewrite map_map. }
  rewrite E in Hp at 2. apply Permutation_map_inv in Hp as (l&El&Hl). exists l. split; [done|]. by symmetry.
Qed.

Lemma source_of_file t k : source_of (file_of t k) = dot_last (fst (fst t) ++ replace (snd (fst t)) dot [underscore]).
Proof. done. Qed.

Lemma sublist_NoDup {A} (l1 l2 : list A) : l1 `sublist_of` l2 -> NoDup l2 -> NoDup l1.
Proof.
  induction 1 as [|x l1 l2 Hs IH|x l1 l2 Hs IH]; intros Hd; [done|..]; apply NoDup_cons in Hd as [Hx Hd]; [|by apply IH].
  constructor; [|by apply IH]. intros Hin. apply Hx. by eapply elem_of_submseteq; [|apply sublist_submseteq].
Qed.

Lemma instability_reports_spec tests trials outs files :
  2 <= trials -> NoDup (map dir_of tests) -> files ≡ₚ all_files tests trials outs ->
  (forall t k, t ∈ tests -> k < trials -> fits (outs t k) /\ clean (outs t k)) ->
  exists rs us, instability_reports trials files = Ok rs /\
    NoDup us /\ (forall t, t ∈ us <-> t ∈ tests /\ unstable (runs trials outs t)) /\
    Forall2 (fun t r => fst r = source_of (file_of t 0) /\ frequencies_of (fst (snd r)) (runs trials outs t)) us rs.
Proof.
  intros Ht Hd Hp Hok. unfold instability_reports.
  rewrite (sorted_all_files tests trials outs files Hd Hp).
  destruct (groups_concat trials (fun t => sort_by file_compare (test_files trials outs t)) (sort_by test_compare tests))
    as [Hg Hlen]; [lia| |].
  { intros t _. rewrite (Permutation_length (sort_by_perm _)). unfold test_files. by rewrite map_length, seq_length. }
  rewrite decide_True.
  2:{ rewrite Hp. assert (length (all_files tests trials outs) = length tests * trials) as ->.
      { unfold all_files. clear. induction tests as [|t tests IH]; [done|]. cbn [map concat]. rewrite app_length, IH, map_length, seq_length. cbn. lia. }
      apply Nat.mod_mul. lia. }
  rewrite Hg.
  (* choose the sorted runs *)
  assert (exists f : text * text * text -> list (list text * list (N * text)),
    (forall t, sort_by file_compare (test_files trials outs t) = map (fun x => (fst x, write_output (snd x))) (f t)) /\
    forall t, f t ≡ₚ map (fun k => (file_of t k, outs t k)) (seq 0 trials)) as (f&Hf1&Hf2).
  { set (f0 := fun t => let keys := map fst (sort_by file_compare (test_files trials outs t)) in
        map (fun p => (p, match list_find (fun k => file_of t k = p) (seq 0 trials) with Some (k, _) => outs t k | None => [] end)) keys).
    assert (forall t x, x ∈ map (fun k => (file_of t k, outs t k)) (seq 0 trials) ->
       match list_find (fun k => file_of t k = fst x) (seq 0 trials) with Some (k, _) => outs t k | None => [] end = snd x) as Hx.
    { intros t x Hx. apply elem_of_list_fmap in Hx as (k&->&Hk). cbn [fst snd].
      apply elem_of_seq in Hk.
      assert (list_find (fun k0 => file_of t k0 = file_of t k) (seq 0 trials) = Some (k, k)) as ->; [|done].
      apply list_find_Some. split; [rewrite lookup_seq; lia|]. split; [done|].
      intros j y Hy Hj E. apply lookup_seq in Hy as [-> _]. apply file_of_inj in E. lia. }
    assert (forall t l, l ≡ₚ map (fun k => (file_of t k, outs t k)) (seq 0 trials) ->
      map (fun p => (p, match list_find (fun k => file_of t k = p) (seq 0 trials) with Some (k, _) => outs t k | None => [] end)) (map fst l) = l) as Hl.
    { intros t l Hl. rewrite map_map. rewrite <- (map_id l) at 2. apply map_ext_in. intros [p o] Hin.
      f_equal. apply (Hx t (p, o)). rewrite <- Hl. by apply elem_of_list_In. }
    exists f0. split; intros t; destruct (test_files_sorted trials outs t) as (l&E&Hl'); unfold f0; rewrite E; cbn zeta;
      replace (map fst (map (fun x => (fst x, write_output (snd x))) l)) with (map fst l) by (by rewrite map_map);
      rewrite (Hl t l Hl'); done. }
  assert (map (fun t => sort_by file_compare (test_files trials outs t)) (sort_by test_compare tests) =
    map (fun b => map (fun x => (fst x, write_output (snd x))) (f b)) (sort_by test_compare tests)) as ->.
  { apply map_ext. intros t. apply Hf1. }
  assert (NoDup tests) as Hnd by (by apply NoDup_fmap_1 in Hd).
  destruct (analyse_groups_spec f (sort_by test_compare tests)) as (rs&us&E&H1&H2&H3&H4).
  { intros t Hin. rewrite sort_by_perm in Hin. split.
    - intros E. pose proof (Hf2 t) as HH. rewrite E in HH. apply Permutation_nil in HH.
      destruct trials; [lia|]. cbn in HH. done.
    - rewrite (Hf2 t). apply Forall_forall. intros x Hx. apply elem_of_list_fmap in Hx as (k&->&Hk). apply elem_of_seq in Hk.
      cbn [snd]. apply Hok; [done|lia]. }
  exists rs, us. split; [done|].
  assert (forall t, map snd (f t) ≡ₚ runs trials outs t) as Hr by (intros t; apply runs_perm, Hf2).
  split; [eapply sublist_NoDup; [exact H1|]; by rewrite sort_by_perm|]. split.
  - intros t. split.
    + intros Hin. assert (t ∈ sort_by test_compare tests) as Hin2 by (by eapply elem_of_submseteq; [|apply sublist_submseteq]).
      split; [by rewrite sort_by_perm in Hin2|]. eapply unstable_perm; [apply Hr|]. by apply H2.
    + intros [Hin Hu]. apply H3; [by rewrite sort_by_perm|]. eapply unstable_perm; [symmetry; apply Hr|done].
  - eapply Forall2_impl; [exact H4|]. cbn. intros t r [(x&Hx&Hs) Hfr]. split.
    + rewrite Hs. rewrite (Hf2 t) in Hx. apply elem_of_list_fmap in Hx as (k&->&_). done.
    + eapply frequencies_perm; [apply Hr|done].
Qed.

(** The number of files must be a multiple of the number of runs. *)
Lemma instability_reports_throws trials files : length files mod trials <> 0 -> instability_reports trials files = Throw RuntimeError.
Proof. intros H. unfold instability_reports. by rewrite decide_False. Qed.

Lemma instability_analysis_spec percent trials files rs : 2 <= trials -> instability_reports trials files = Ok rs ->
  instability_analysis percent trials files =
  Ok (match rs with [] => txt_none_detected | _ => concat (map (fun r => report percent (fst r) (snd r)) rs) end).
Proof. intros H E. unfold instability_analysis. rewrite decide_False by lia. by rewrite E. Qed.

Lemma dir_of_names s e n n' : dir_of (s, e, n) = dir_of (s, e, n') ->
  Forall2 (fun c c' => c = c' \/ (c ∈ [" "; "_"]%char /\ c' ∈ [" "; "_"]%char)) n n'.
Proof.
  unfold dir_of, analysis_dir. cbn [fst snd]. intros [= E]. revert n' E.
  induction n as [|c n IH]; intros [|c' n'] E; [constructor|done|done|]. cbn [map] in E. injection E as Ec E.
  constructor; [|by apply IH]. clear IH E. destruct (decide (c = " "%char)) as [->|H1], (decide (c' = " "%char)) as [->|H2]; subst.
  - by left.
  - right. unfold underscore. split; [by left|by right; left].
  - right. unfold underscore. split; [by right; left|by left].
  - by left.
Qed.
