(** Proofs about the suffixes of numbers. *)
From Coq Require Import Ascii String.
From stdpp Require Import list.
From Verif.Base Require Import Outcome ListLemmas.
From Verif.Text Require Import Model Spec Proofs ProofsCase ProofsIndent.
From Verif.Names Require Import Model Spec Proofs ProofsCasts.
Local Open Scope res_scope.
Local Notation "⌜ s ⌝" := (list_ascii_of_string s%string).
Local Notation length := List.length.

Lemma digit_7 c : a_digit c -> ascii7 c.
Proof.
  intros H. assert (digit_code c = true) as E by by rewrite digit_code_spec, bool_decide_eq_true_2.
  unfold digit_code, code in E. unfold ascii7. lia.
Qed.

Lemma isalpha_spec sc c : ascii7 c -> exists b, isalpha sc c = Ok b /\ (b = true <-> a_letter c).
Proof.
  intros H. exists (upper_code c || lower_code c). split; [by apply isalpha_7|]. unfold a_letter.
  rewrite orb_true_iff, upper_code_spec, lower_code_spec. tauto.
Qed.

Lemma isalpha_no sc c : ascii7 c -> ~ a_letter c -> isalpha sc c = Ok false.
Proof. intros H Hn. destruct (isalpha_spec sc c H) as ([]&->&Hb); [tauto|done]. Qed.

Lemma isalpha_yes sc c : ascii7 c -> a_letter c -> isalpha sc c = Ok true.
Proof. intros H Hn. destruct (isalpha_spec sc c H) as ([]&->&Hb); [done|]. exfalso. by apply Hb in Hn. Qed.

Lemma digit_not_letter c : a_digit c -> ~ a_letter c.
Proof.
  intros H. assert (digit_code c = true) as E by by rewrite digit_code_spec, bool_decide_eq_true_2.
  unfold digit_code, code in E. unfold a_letter, is_lower, is_upper. lia.
Qed.

Lemma closing_facts c : closing c -> ascii7 c /\ ~ a_digit c /\ ~ a_letter c /\ c <> "x"%char.
Proof.
  intros H.
  assert (ascii7 c /\ digit_code c = false /\ ~ a_letter c /\ c <> "x"%char) as (H1&H2&H3&H4).
  { destruct H as [-> | ->]; unfold ascii7, a_letter; (split; [apply (bool_decide_unpack _); by vm_compute|]; split; [done|]; split;
      [apply (bool_decide_unpack _); by vm_compute|done]). }
  rewrite digit_code_spec in H2. apply bool_decide_eq_false in H2. done.
Qed.

Lemma to_digit_at sc A m d r : Forall (fun c => ascii7 c /\ ~ a_digit c) m -> a_digit d -> r <> [] ->
  forall fuel, length m < fuel -> to_digit sc fuel (A ++ m ++ d :: r) (length A) = Ok (length A + length m).
Proof.
  intros Hm Hd Hr. revert A. induction m as [|x m IH]; intros A fuel Hf; (destruct fuel as [|fuel]; [lia|]).
  - cbn [to_digit app]. destruct r as [|y r]; [done|]. rewrite decide_True by (rewrite app_length; simpl; lia).
    rewrite (char_at_lt _ _ d) by by apply list_lookup_middle. cbn [rbind]. rewrite isdigit_7 by by apply digit_7.
    cbn [rbind]. rewrite bool_decide_eq_true_2 by done. f_equal. simpl. lia.
  - apply Forall_cons in Hm as [[H1 H2] Hm]. cbn [to_digit app].
    rewrite decide_True by (rewrite app_length; simpl; rewrite app_length; simpl; lia).
    rewrite (char_at_lt _ _ x) by by apply list_lookup_middle. cbn [rbind]. rewrite isdigit_7 by done.
    cbn [rbind]. rewrite bool_decide_eq_false_2 by done.
    specialize (IH Hm (A ++ [x]) fuel ltac:(simpl in Hf; lia)). rewrite <- app_assoc in IH. cbn [app] in IH.
    rewrite app_length in IH. cbn [List.length] in *. replace (length A + 1) with (S (length A)) in IH by lia. rewrite IH. f_equal. lia.
Qed.

Lemma to_digit_none sc A m : Forall (fun c => ascii7 c /\ ~ a_digit c) m ->
  forall fuel, length m < fuel -> exists p, to_digit sc fuel (A ++ m) (length A) = Ok p /\ length A <= p /\ length (A ++ m) - 1 <= p.
Proof.
  intros Hm. revert A. induction m as [|x m IH]; intros A fuel Hf; (destruct fuel as [|fuel]; [lia|]).
  - cbn [to_digit]. rewrite app_nil_r. rewrite decide_False by lia. exists (length A). split; [done|]. lia.
  - apply Forall_cons in Hm as [[H1 H2] Hm]. cbn [to_digit]. case_decide as Hl.
    + rewrite (char_at_lt _ _ x) by by apply list_lookup_middle. cbn [rbind]. rewrite isdigit_7 by done.
      cbn [rbind]. rewrite bool_decide_eq_false_2 by done.
      destruct (IH Hm (A ++ [x]) fuel) as (p&E&H3&H4); [simpl in Hf; lia|]. rewrite <- app_assoc in E, H4. cbn [app] in E, H4.
      rewrite app_length in E, H3. cbn [List.length] in E, H3. replace (length A + 1) with (S (length A)) in E by lia.
      exists p. split; [done|]. split; [lia|done].
    + exists (length A). split; [done|]. lia.
Qed.

Lemma past_digits_at sc c r : ascii7 c -> ~ a_digit c -> forall ds A x fuel, Forall a_digit ds -> length ds < fuel ->
  past_digits sc fuel (A ++ (x :: ds) ++ c :: r) (length A) = Ok (length A + length (x :: ds)).
Proof.
  intros Hc Hcd. induction ds as [|d ds IH]; intros A x fuel Hds Hf; (destruct fuel as [|fuel]; [lia|]).
  - cbn [past_digits app]. rewrite decide_True by (rewrite app_length; simpl; lia).
    rewrite (char_at_lt _ _ c).
    2: { change (x :: c :: r) with ([x] ++ c :: r). rewrite app_assoc. apply list_lookup_middle. rewrite app_length. simpl. lia. }
    cbn [rbind]. rewrite isdigit_7 by done. cbn [rbind]. rewrite bool_decide_eq_false_2 by done. f_equal. simpl. lia.
  - apply Forall_cons in Hds as [Hd Hds]. cbn [past_digits app]. rewrite decide_True by (rewrite app_length; simpl; lia).
    rewrite (char_at_lt _ _ d).
    2: { change (x :: d :: ds ++ c :: r) with ([x] ++ d :: (ds ++ c :: r)). rewrite app_assoc. apply list_lookup_middle. rewrite app_length. simpl. lia. }
    cbn [rbind]. rewrite isdigit_7 by by apply digit_7. cbn [rbind]. rewrite bool_decide_eq_true_2 by done.
    specialize (IH (A ++ [x]) d fuel Hds ltac:(simpl in Hf; lia)). rewrite <- app_assoc in IH. cbn [app] in IH.
    rewrite app_length in IH. cbn [List.length] in *. replace (length A + 1) with (S (length A)) in IH by lia. rewrite IH. f_equal. lia.
Qed.

(** Nothing to do behind the last number. *)
Lemma literals_tail sc cv tail : Forall (fun c => ascii7 c /\ ~ a_digit c) tail ->
  forall fuel A pos, length A <= pos -> length (A ++ tail) - pos < fuel ->
  literals_loop sc cv fuel (A ++ tail) pos = Ok (A ++ tail).
Proof.
  intros Ht. induction fuel as [|fuel IH]; intros A pos Hp Hf; [lia|]. cbn [literals_loop]. case_decide as Hl; [|done].
  destruct (find_first_of (A ++ tail) ⌜"< "⌝ pos) as [o|] eqn:E; [|done]. apply find_first_of_range in E.
  set (k := S o - length A).
  assert (A ++ tail = (A ++ take k tail) ++ drop k tail) as Es by by rewrite <- app_assoc, take_drop.
  assert (length (A ++ take k tail) = S o) as Hlen.
  { rewrite app_length, take_length. rewrite app_length in E. unfold k. lia. }
  destruct (to_digit_none sc (A ++ take k tail) (drop k tail)) with (fuel := S (length (A ++ tail))) as (p&E2&H3&H4).
  { by apply Forall_drop. }
  { rewrite drop_length, app_length. lia. }
  rewrite <- Es in E2, H4. rewrite Hlen in E2, H3. rewrite E2. cbn [rbind].
  rewrite decide_False by lia. apply IH; lia.
Qed.

Lemma split_opens l : opens l -> exists b1 o b2, l = b1 ++ o :: b2 /\ o ∈ ⌜"< "⌝ /\ Forall (fun x => x ∉ ⌜"< "⌝) b1.
Proof.
  intros H. destruct (find_any ⌜"< "⌝ l) as [i|] eqn:E.
  - apply find_any_Some in E as (b1&o&b2&->&_&H1&H2). eauto 10.
  - exfalso. apply find_any_None in E. rewrite Forall_forall in E.
    destruct H as [H|H]; apply E in H; apply H; [by left|by right; left].
Qed.

(** One number. *)
Lemma literals_step sc cv P x c R fuel :
  literal_ok x -> opens (before x) -> closing c ->
  literals_loop sc cv (S fuel) (P ++ before x ++ digits x ++ suffix x ++ c :: R) (length P) =
  literals_loop sc cv fuel (P ++ before x ++ digits x ++ c :: R)
    (match suffix x with [] => length (P ++ before x ++ digits x) | _ => S (length (P ++ before x ++ digits x)) end).
Proof.
  destruct x as [bf ds sf]. unfold literal_ok. cbn [before digits suffix].
  intros (Hbf&(bl&lc&Ebl&Hl1&Hl2&Hl3)&(Hds1&Hds)&Hsf&Hsf2) Hop Hc.
  destruct (split_opens bf Hop) as (b1&o&b2&Eb&Ho&Hb1).
  destruct ds as [|d ds]; [done|]. clear Hds1. apply Forall_cons in Hds as [Hd Hds].
  destruct (closing_facts c Hc) as (Hc1&Hc2&Hc3&Hc4).
  set (name := P ++ bf ++ (d :: ds) ++ sf ++ c :: R).
  assert (length name = length P + length bf + S (length ds) + length sf + S (length R)) as Hlen.
  { unfold name. rewrite !app_length. simpl. lia. }
  assert (length bf = length b1 + S (length b2)) as Hbl by (rewrite Eb, app_length; simpl; lia).
  cbn [literals_loop]. rewrite decide_True by lia.
  assert (find_first_of name ⌜"< "⌝ (length P) = Some (length P + length b1)) as ->.
  { unfold name. rewrite Eb. rewrite <- app_assoc. cbn [app]. by apply find_first_of_app. }
  assert (Forall (fun c => ascii7 c /\ ~ a_digit c) b2) as Hb2.
  { rewrite Eb in Hbf. apply Forall_app in Hbf as [_ Hbf]. by apply Forall_cons in Hbf as [_ Hbf]. }
  assert (to_digit sc (S (length name)) name (S (length P + length b1)) = Ok (length P + length bf)) as ->.
  { assert (name = (P ++ b1 ++ [o]) ++ b2 ++ d :: (ds ++ sf ++ c :: R)) as Hn.
    { unfold name. rewrite Eb. by rewrite <- !app_assoc. }
    assert (S (length P + length b1) = length (P ++ b1 ++ [o])) as -> by (rewrite !app_length; simpl; lia).
    rewrite Hn. rewrite to_digit_at; [|done|done| |].
    - f_equal. rewrite !app_length. simpl. lia.
    - intros Hx. apply (f_equal length) in Hx. rewrite !app_length in Hx. simpl in Hx. lia.
    - rewrite <- Hn. lia. }
  cbn [rbind]. rewrite decide_True by lia.
  assert (name = (P ++ bl) ++ lc :: (d :: ds) ++ sf ++ c :: R) as Hn2.
  { unfold name. rewrite Ebl. by rewrite <- !app_assoc. }
  assert (length bf = S (length bl)) as Hbl2 by (rewrite Ebl, app_length; simpl; lia).
  assert (ascii7 lc) as Hlc7. { rewrite Ebl in Hbf. apply Forall_app in Hbf as [_ Hbf]. apply Forall_cons in Hbf as [Hbf _]. tauto. }
  rewrite (char_at_lt _ _ lc).
  2: { rewrite Hn2. apply list_lookup_middle. rewrite app_length. lia. }
  cbn [rbind]. rewrite (decide_False (P := lc = underscore)) by done. rewrite isalpha_no by done. cbn [rbind].
  rewrite (decide_False (P := lc = "["%char)) by done. cbn [rbind].
  (* no hexadecimal number *)
  assert (hexadecimal cv name (length P + length bf) = Ok (name, length P + length bf)) as ->.
  { unfold hexadecimal.
    assert (exists y, name !! (length P + length bf + 1) = Some y /\ y <> "x"%char) as (y&Hy&Hyx).
    { destruct (ds ++ sf ++ c :: R) as [|y rest] eqn:Er.
      - exfalso. apply (f_equal length) in Er. rewrite !app_length in Er. simpl in Er. lia.
      - exists y. split.
        + unfold name. cbn [app]. rewrite Er. rewrite app_assoc. change (d :: y :: rest) with ([d] ++ y :: rest).
          rewrite app_assoc. apply list_lookup_middle. rewrite !app_length. simpl. lia.
        + destruct ds as [|d2 ds]; cbn in Er.
          * destruct sf as [|s sf]; cbn in Er.
            -- injection Er as <- _. done.
            -- injection Er as <- _. tauto.
          * injection Er as <- _. apply Forall_cons in Hds as [Hd2 _]. intros ->. apply digit_not_letter in Hd2.
            apply Hd2. left. apply (bool_decide_unpack _). by vm_compute. }
    rewrite (char_at_lt _ _ y Hy). cbn [rbind]. by rewrite decide_False. }
  cbn [rbind].
  (* behind the digits *)
  assert (past_digits sc (S (length name)) name (length P + length bf) = Ok (length P + length bf + S (length ds))) as ->.
  { assert (exists y rest, sf ++ c :: R = y :: rest /\ ascii7 y /\ ~ a_digit y) as (y&rest&Er&Hy1&Hy2).
    { destruct sf as [|s sf]; [exists c, R; done|]. exists s, (sf ++ c :: R). split; [done|].
      apply Forall_cons in Hsf as [[Hs _] _]. split; [done|]. intros Hx. apply digit_not_letter in Hx. tauto. }
    pose proof (past_digits_at sc y rest Hy1 Hy2 ds (P ++ bf) d (S (length name)) Hds) as H.
    rewrite <- app_assoc in H. rewrite <- Er in H. rewrite app_length in H. apply H. lia. }
  cbn [rbind].
  set (E := P ++ bf ++ d :: ds).
  assert (name = E ++ sf ++ c :: R) as Hn3 by (unfold E, name; by rewrite <- !app_assoc).
  assert (length P + length bf + S (length ds) = length E) as -> by (unfold E; rewrite !app_length; simpl; lia).
  assert (length P + length b1 < length E - 1) as Hopen by (unfold E; rewrite !app_length; simpl; lia).
  assert (P ++ bf ++ (d :: ds) ++ c :: R = E ++ c :: R) as -> by (unfold E; by rewrite <- !app_assoc).
  change (P ++ bf ++ d :: ds) with E.
  unfold drop_suffix. rewrite decide_True by (rewrite Hn3, !app_length; simpl; lia).
  destruct sf as [|s sf].
  - rewrite (char_at_lt _ _ c) by (rewrite Hn3; by apply list_lookup_middle). cbn [rbind].
    rewrite isalpha_no by done. cbn [rbind]. by rewrite Hn3.
  - rewrite (char_at_lt _ _ s) by (rewrite Hn3; by apply list_lookup_middle). cbn [rbind].
    pose proof Hsf as Hsf'. apply Forall_cons in Hsf' as [[Hs7 _] _].
    rewrite isalpha_yes by tauto. cbn [rbind].
    assert (find_first_of name ⌜",>"⌝ (length E) = Some (length E + length (s :: sf))) as ->.
    { rewrite Hn3. apply find_first_of_app.
      - destruct Hc as [-> | ->]; [by left|by right; left].
      - apply (Forall_impl _ _ _ Hsf). intros z [_ Hz] Hin. apply Hz. apply elem_of_cons in Hin as [Hin|Hin]; [by left|].
        apply elem_of_cons in Hin as [Hin|Hin]; [by right|]. by apply not_elem_of_nil in Hin. }
    cbn [rbind]. replace (length E + length (s :: sf) - length E) with (length (s :: sf)) by lia.
    rewrite Hn3. rewrite erase_group. done.
Qed.

Lemma literal_ok_tail x : literal_ok x -> opens (List.tail (before x)) ->
  literal_ok (Literal (List.tail (before x)) (digits x) (suffix x)).
Proof.
  intros (H1&(l&c&E&Hc)&H3) Ho. split; [|split; [|done]]; cbn [before digits suffix] in *.
  - destruct (before x); [done|]. by apply Forall_cons in H1 as [_ H1].
  - destruct l as [|y l].
    + exfalso. rewrite E in Ho. cbn in Ho. destruct Ho as [Ho|Ho]; by apply not_elem_of_nil in Ho.
    + exists l, c. split; [by rewrite E|done].
Qed.

Lemma literals_all sc cv tail : Forall (fun c => ascii7 c /\ ~ a_digit c) tail -> follows tail ->
  forall xs x P fuel, literal_ok x -> opens (before x) ->
  Forall (fun y => literal_ok y /\ follows (before y) /\ opens (List.tail (before y))) xs ->
  length (P ++ with_suffixes (x :: xs) tail) - length P < fuel ->
  literals_loop sc cv fuel (P ++ with_suffixes (x :: xs) tail) (length P) = Ok (P ++ without_suffixes (x :: xs) tail).
Proof.
  intros Ht Hft.
  assert (forall y ys, with_suffixes (y :: ys) tail = before y ++ digits y ++ suffix y ++ with_suffixes ys tail) as Ew.
  { intros. unfold with_suffixes. cbn [map concat]. by rewrite <- !app_assoc. }
  assert (forall y ys, without_suffixes (y :: ys) tail = before y ++ digits y ++ without_suffixes ys tail) as Ewo.
  { intros. unfold without_suffixes. cbn [map concat]. by rewrite <- !app_assoc. }
  induction xs as [|y xs IH]; intros x P fuel Hx Hop Hxs Hf; (destruct fuel as [|fuel]; [lia|]).
  - destruct Hft as (c&t'&->&Hc). rewrite Ew, Ewo in *. change (with_suffixes [] (c :: t')) with (c :: t') in *.
    change (without_suffixes [] (c :: t')) with (c :: t').
    rewrite literals_step by done.
    assert (P ++ before x ++ digits x ++ c :: t' = (P ++ before x ++ digits x) ++ c :: t') as -> by by rewrite <- !app_assoc.
    apply literals_tail; [done| |].
    + destruct (suffix x); lia.
    + destruct Hx as (_&_&(Hx&_)&_). destruct (digits x); [done|].
      rewrite !app_length in *. simpl in *. destruct (suffix x); simpl in *; rewrite ?app_length in *; simpl in *; lia.
  - apply Forall_cons in Hxs as [(Hy1&Hy2&Hy3) Hxs]. rewrite Ew, Ewo in *. rewrite (Ew y xs) in *.
    destruct Hy2 as (c&b'&Eb&Hc). rewrite Eb in Hf |- *. cbn [app].
    pose proof (literals_step sc cv P x c (b' ++ digits y ++ suffix y ++ with_suffixes xs tail) fuel Hx Hop Hc) as HS.
    rewrite HS.
    assert (0 < length (digits x)) as Hdx by (destruct Hx as (_&_&(Hx&_)&_); destruct (digits x); [done|simpl; lia]).
    destruct (suffix x) as [|s sf] eqn:Es.
    + specialize (IH y (P ++ before x ++ digits x) fuel Hy1). rewrite Ew, Ewo, Eb in IH. rewrite <- !app_assoc in IH. cbn [app] in IH.
      rewrite Ewo, Eb. cbn [app]. apply IH; [|done|].
      * unfold opens. rewrite Eb in Hy3. cbn in Hy3. destruct Hy3 as [H|H]; [left|right]; by right.
      * clear -Hf Hdx. repeat (rewrite !app_length in * || cbn [List.length app] in *). lia.
    + specialize (IH (Literal (List.tail (before y)) (digits y) (suffix y)) (P ++ before x ++ digits x ++ [c]) fuel).
      rewrite Ew, Ewo in IH. cbn [before digits suffix] in IH. rewrite Eb in IH. cbn [List.tail] in IH. rewrite <- !app_assoc in IH. cbn [app] in IH.
      rewrite Ewo, Eb. cbn [app].
      assert (S (length (P ++ before x ++ digits x)) = length (P ++ before x ++ digits x ++ [c])) as ->.
      { rewrite !app_length. simpl. lia. }
      apply IH.
      * pose proof (literal_ok_tail y Hy1 Hy3) as H. by rewrite Eb in H.
      * by rewrite Eb in Hy3.
      * done.
      * clear -Hf Hdx. repeat (rewrite !app_length in * || cbn [List.length app] in *). lia.
Qed.

Lemma process_literals_spec sc cv xs tail : literals_ok xs tail ->
  process_literals sc cv (with_suffixes xs tail) = Ok (without_suffixes xs tail).
Proof.
  intros (H1&H2&H3&H4&H5). unfold process_literals. destruct xs as [|x xs].
  - change (with_suffixes [] tail) with ([] ++ tail). apply literals_tail; [done|simpl; lia|]. cbn [app]. lia.
  - apply (literals_all sc cv tail H4 (H5 ltac:(done)) xs x []).
    + by apply Forall_cons in H1 as [H1 _].
    + by apply (H2 x xs).
    + apply Forall_cons in H1 as [_ H1]. specialize (H3 x xs eq_refl). apply Forall_and. by split.
    + simpl. lia.
Qed.

(** ** Spans *)

Lemma first_at_prefix from pre post : ~ occurs from (pre ++ removelast from) -> from <> [] ->
  first_at from (pre ++ from ++ post) (length pre).
Proof.
  intros H Hne. split; [by exists pre, post|]. intros j (a&b&E&<-). apply Nat.nlt_ge. intros Hlt. apply H.
  exists (length a).
  assert (take (length a + length from) (pre ++ from ++ post) = a ++ from) as Et.
  { rewrite E, app_assoc, <- app_length. apply take_app. }
  destruct (exists_last Hne) as (f&z&Ef). rewrite Ef, removelast_last.
  assert (length from = S (length f)) as Hlf by (rewrite Ef, app_length; simpl; lia).
  exists a, (drop (length a + length from) (pre ++ f)). split; [|done].
  rewrite <- (take_drop (length a + length from) (pre ++ f)) at 1. rewrite app_assoc. f_equal.
  rewrite <- Ef, <- Et.
  assert (pre ++ from ++ post = (pre ++ f) ++ z :: post) as -> by (rewrite Ef; by rewrite <- !app_assoc).
  symmetry. apply take_app_le. rewrite app_length. lia.
Qed.

Lemma process_spans_spec pre el post :
  ~ occurs ⌜"::span<"⌝ (pre ++ ⌜"::span"⌝) -> ","%char ∉ el -> ">"%char ∉ el ->
  process_spans (pre ++ ⌜"::span<"⌝ ++ el ++ ⌜", 18446744073709551615>"⌝ ++ post) =
  Ok (pre ++ ⌜"::span<"⌝ ++ el ++ ⌜", -1>"⌝ ++ post).
Proof.
  intros Hpre Hc Hb. unfold process_spans, find_sandwiched_text.
  set (name := pre ++ ⌜"::span<"⌝ ++ el ++ ⌜", 18446744073709551615>"⌝ ++ post).
  assert (find_from name ⌜"::span<"⌝ 0 = Some (length pre)) as ->.
  { pose proof (find_from_app_Some ⌜"::span<"⌝ [] pre (el ++ ⌜", 18446744073709551615>"⌝ ++ post)) as H. cbn [app List.length] in H.
    apply H. apply first_at_prefix; [|done]. exact Hpre. }
  change (length ⌜"::span<"⌝) with 7.
  set (start := length pre + 7).
  assert (length (pre ++ ⌜"::span<"⌝) = start) as Hst by (rewrite app_length; done).
  assert (find_from name ⌜">"⌝ start = Some (start + (length el + 22))) as ->.
  { rewrite <- Hst. unfold name. rewrite app_assoc.
    pose proof (find_from_app_Some ⌜">"⌝ (pre ++ ⌜"::span<"⌝) (el ++ ⌜", 18446744073709551615"⌝) post) as H.
    rewrite <- app_assoc in H. change (⌜", 18446744073709551615"⌝ ++ ⌜">"⌝ ++ post) with (⌜", 18446744073709551615>"⌝ ++ post) in H.
    rewrite H.
    - f_equal. rewrite !app_length. simpl. lia.
    - assert (el ++ ⌜", 18446744073709551615>"⌝ ++ post = (el ++ ⌜", 18446744073709551615"⌝) ++ [">"%char] ++ post) as ->
        by by rewrite <- app_assoc.
      change ⌜">"⌝ with [">"%char]. apply first_at_char. intros Ho.
      rewrite elem_of_app in Ho. destruct Ho as [Ho|Ho]; [done|].
      apply (bool_decide_eq_true_2 _) in Ho. vm_compute in Ho. done. }
  rewrite decide_False by lia.
  assert (find_from name [","%char] start = Some (start + length el)) as ->.
  { rewrite <- Hst. unfold name. rewrite app_assoc.
    apply (find_from_app_Some [","%char] (pre ++ ⌜"::span<"⌝) el (⌜" 18446744073709551615>"⌝ ++ post)).
    by apply first_at_char. }
  rewrite decide_True by lia.
  set (A := pre ++ ⌜"::span<"⌝ ++ el ++ ⌜", "⌝).
  assert (length A = start + length el + 2) as HA by (unfold A; rewrite !app_length; unfold start; simpl; lia).
  assert (name = A ++ ⌜"18446744073709551615"⌝ ++ ">"%char :: post) as Hn.
  { unfold name, A. rewrite <- !app_assoc. done. }
  rewrite (char_at_lt _ _ " "%char).
  2: { assert (name = (pre ++ ⌜"::span<"⌝ ++ el ++ ⌜","⌝) ++ " "%char :: ⌜"18446744073709551615>"⌝ ++ post) as ->.
       { unfold name. by rewrite <- !app_assoc. }
       apply list_lookup_middle. rewrite !app_length. unfold start. simpl. lia. }
  cbn [rbind]. cbv zeta. rewrite (decide_True (P := " "%char = " "%char)) by done.
  replace (2 + (start + length el)) with (length A) by lia.
  replace (start + (length el + 22) - length A) with (length ⌜"18446744073709551615"⌝).
  2: { rewrite HA. change (length ⌜"18446744073709551615"⌝) with 20. lia. }
  rewrite Hn. rewrite drop_app, take_app.
  rewrite decide_True by (vm_compute; reflexivity). rewrite splice_app. f_equal. unfold A. rewrite <- !app_assoc. done.
Qed.
