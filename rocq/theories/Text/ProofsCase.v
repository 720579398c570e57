(** Proofs about the case conversions. *)
From Coq Require Import Ascii.
From stdpp Require Import list sets.
From Verif.Base Require Import Outcome ListLemmas.
From Verif.Text Require Import Model Spec Proofs.
Local Open Scope res_scope.

Lemma code_lt c : code c < 256.
Proof. apply nat_ascii_bounded. Qed.

Lemma code_of_nat n : n < 256 -> code (ascii_of_nat n) = n.
Proof. apply nat_ascii_embedding. Qed.

Lemma code_inj c d : code c = code d -> c = d.
Proof. intros H. rewrite <- (ascii_nat_embedding c), <- (ascii_nat_embedding d). by f_equal. Qed.

Lemma lower_code_spec c : lower_code c = true <-> is_lower c.
Proof. unfold lower_code, is_lower, code. lia. Qed.
Lemma upper_code_spec c : upper_code c = true <-> is_upper c.
Proof. unfold upper_code, is_upper, code. lia. Qed.

Lemma to_upper_spec c : upper_of c (to_upper c).
Proof.
  unfold upper_of, to_upper. destruct (lower_code c) eqn:E.
  - apply lower_code_spec in E. left. split; [done|]. pose proof (code_lt c).
    change (code (ascii_of_nat (code c - 32)) + 32 = code c).
    rewrite code_of_nat by lia. unfold is_lower in E. unfold code in *. lia.
  - right. split; [|done]. rewrite <- lower_code_spec. congruence.
Qed.

Lemma to_lower_spec c : lower_of c (to_lower c).
Proof.
  unfold lower_of, to_lower. destruct (upper_code c) eqn:E.
  - apply upper_code_spec in E. left. split; [done|].
    unfold is_upper in E. change (code (ascii_of_nat (code c + 32)) = code c + 32).
    unfold code in *. rewrite nat_ascii_embedding; lia.
  - right. split; [|done]. rewrite <- upper_code_spec. congruence.
Qed.

Lemma upper_of_fun c u v : upper_of c u -> upper_of c v -> u = v.
Proof.
  intros [[H1 H2]|[H1 ->]] [[H3 H4]|[H3 ->]]; try done. apply code_inj. unfold code. lia.
Qed.

Lemma lower_of_fun c u v : lower_of c u -> lower_of c v -> u = v.
Proof.
  intros [[H1 H2]|[H1 ->]] [[H3 H4]|[H3 ->]]; try done. apply code_inj. unfold code. lia.
Qed.

Lemma cctype_7 sc p c : ascii7 c -> cctype sc p c = Ok (p c).
Proof.
  intros H. unfold cctype, code. unfold ascii7 in H.
  destruct (128 <=? nat_of_ascii c) eqn:E; [apply Nat.leb_le in E; lia|]. by rewrite andb_false_r.
Qed.

Lemma isalpha_7 sc c : ascii7 c -> isalpha sc c = Ok (upper_code c || lower_code c).
Proof. intros H. unfold isalpha. by rewrite cctype_7. Qed.

Lemma to_upper_nonlower c : lower_code c = false -> to_upper c = c.
Proof. intros H. unfold to_upper. by rewrite H. Qed.

Lemma upper_at_head sc pre c post : ascii7 c ->
  upper_at sc (pre ++ c :: post) (length pre) = Ok (pre ++ to_upper c :: post).
Proof.
  intros H. unfold upper_at. rewrite list_lookup_middle by done. rewrite isalpha_7 by done. simpl.
  f_equal. destruct (upper_code c || lower_code c) eqn:E.
  - rewrite <- (Nat.add_0_r (length pre)). by rewrite insert_app_r.
  - apply orb_false_elim in E as [_ E]. by rewrite (to_upper_nonlower c E).
Qed.

Definition cap (w : text) : text := match w with [] => [] | c :: w' => to_upper c :: w' end.

Lemma capitalized_cap w v : capitalized w v <-> v = cap w.
Proof.
  destruct w as [|c w], v as [|u v]; simpl; try (split; [done|done]).
  split.
  - intros [H ->]. f_equal. apply (upper_of_fun c); [done|apply to_upper_spec].
  - intros [= -> ->]. split; [apply to_upper_spec|done].
Qed.

Lemma join_cons sep w ws : join sep (w :: ws) = w ++ concat (map (app sep) ws).
Proof.
  revert w. induction ws as [|v ws IH]; intros w; [simpl; by rewrite app_nil_r|].
  change (join sep (w :: v :: ws)) with (w ++ sep ++ join sep (v :: ws)). rewrite IH. simpl.
  by rewrite <- app_assoc.
Qed.

(** All words but the last are not empty. *)
Definition inner_words (ws : list text) : Prop := forall ws1 w ws2, ws = ws1 ++ w :: ws2 -> ws2 <> [] -> w <> [].

Lemma inner_words_tail w ws : inner_words (w :: ws) -> inner_words ws.
Proof. intros H ws1 v ws2 -> Hne. apply (H (w :: ws1) v ws2); done. Qed.

Lemma camel_loop_spec sc sep fuel : forall ws pre0 w,
  length ws < fuel -> underscore ∉ w -> Forall (fun v => underscore ∉ v /\ Forall ascii7 v) ws ->
  inner_words ws ->
  camel_loop fuel sc (pre0 ++ w ++ concat (map (app [underscore]) ws)) sep (length pre0) =
  Ok (pre0 ++ w ++ concat (map (fun v => sep ++ cap v) ws)).
Proof.
  induction fuel as [|fuel IH]; intros ws pre0 w Hf Hw Hws Hin; [lia|]. cbn [camel_loop].
  destruct ws as [|v ws].
  - simpl. rewrite app_nil_r. rewrite find_from_app_None; [done|]. by rewrite occurs_char.
  - cbn [map concat]. rewrite <- (app_assoc [underscore] v).
    rewrite find_from_app_Some by (by apply first_at_char).
    rewrite (app_assoc pre0 w), <- app_length.
    pose proof (splice_app (pre0 ++ w) [underscore] (v ++ concat (map (app [underscore]) ws)) sep) as Es.
    cbn [length] in Es. rewrite Es. clear Es.
    apply Forall_cons in Hws as [[Hv Hv7] Hws].
    destruct v as [|c v].
    + destruct ws as [|v' ws]; [|exfalso; by apply (Hin [] [] (v' :: ws))].
      cbn [map concat app]. rewrite !app_nil_r.
      assert (upper_at sc ((pre0 ++ w) ++ sep) (length (pre0 ++ w) + length sep) = Ok ((pre0 ++ w) ++ sep)) as ->.
      { unfold upper_at. rewrite lookup_ge_None_2; [done|]. rewrite (app_length _ sep). lia. }
      cbn [rbind]. destruct fuel as [|fuel]; [simpl in Hf; lia|]. cbn [camel_loop].
      rewrite find_from_beyond by (rewrite (app_length _ sep); lia). by rewrite <- app_assoc.
    + apply Forall_cons in Hv7 as [Hc Hv7].
      rewrite (app_assoc _ sep), <- app_length. rewrite <- (app_comm_cons v).
      rewrite upper_at_head by done. cbn [rbind].
      replace (length (pre0 ++ w) + (length sep + 1)) with (length (((pre0 ++ w) ++ sep) ++ [to_upper c]))
        by (rewrite (app_length _ [_]), (app_length _ sep); simpl; lia).
      change (to_upper c :: v ++ concat (map (app [underscore]) ws))
        with ([to_upper c] ++ v ++ concat (map (app [underscore]) ws)).
      rewrite app_assoc. rewrite IH.
      * cbn [cap]. by rewrite <- !app_assoc.
      * simpl in Hf. lia.
      * set_solver.
      * done.
      * by apply (inner_words_tail (c :: v)).
Qed.

Lemma to_upper_underscore c : to_upper c = underscore -> c = underscore.
Proof.
  intros H. pose proof (to_upper_spec c) as [[H1 H2]|[H1 H2]].
  - rewrite H in H2. unfold is_lower in H1. change (nat_of_ascii underscore) with 95 in H2. lia.
  - congruence.
Qed.

Lemma cap_underscore w : underscore ∉ w -> underscore ∉ cap w.
Proof.
  destruct w as [|c w]; [done|]. simpl. rewrite !not_elem_of_cons. intros [H1 H2]. split; [|done].
  intros E. apply H1. symmetry. by apply to_upper_underscore.
Qed.

Lemma camel_case_spec fuel sc sep w ws : length ws < fuel ->
  Forall (fun v => underscore ∉ v /\ Forall ascii7 v) (w :: ws) -> inner_words ws ->
  to_camel_case fuel sc (join [underscore] (w :: ws)) sep = Ok (join sep (map cap (w :: ws))).
Proof.
  intros Hf Hws Hin. apply Forall_cons in Hws as [[Hw Hw7] Hws].
  cbn [map]. rewrite !join_cons, map_map. unfold to_camel_case.
  destruct (w ++ concat (map (app [underscore]) ws)) as [|x l] eqn:E.
  { apply app_eq_nil in E as [-> E]. destruct ws as [|v ws]; [done|]. simpl in E. done. }
  rewrite <- E. clear E x l.
  assert (upper_at sc (w ++ concat (map (app [underscore]) ws)) 0 = Ok (cap w ++ concat (map (app [underscore]) ws))) as ->.
  { destruct w as [|c w].
    - destruct ws as [|v ws]; [done|]. cbn [app map concat cap].
      apply (upper_at_head sc [] underscore). unfold ascii7. change (nat_of_ascii underscore) with 95. lia.
    - apply Forall_cons in Hw7 as [Hc Hw7]. apply (upper_at_head sc [] c); done. }
  cbn [rbind]. apply (camel_loop_spec sc sep fuel ws [] (cap w)); try done.
  by apply cap_underscore.
Qed.

(** Every text is words with underscores between them. *)
Fixpoint split_us (l : text) : list text :=
  match l with
  | [] => [[]]
  | c :: l' => if decide (c = underscore) then [] :: split_us l'
               else match split_us l' with [] => [[c]] | w :: ws => (c :: w) :: ws end
  end.

Lemma split_us_ne l : split_us l <> [].
Proof. destruct l as [|c l]; simpl; [done|]. case_decide; [done|]. by destruct (split_us l). Qed.

Lemma split_us_join l : join [underscore] (split_us l) = l.
Proof.
  induction l as [|c l IH]; [done|]. simpl. case_decide as E.
  - subst. rewrite join_cons. destruct (split_us l) as [|w ws] eqn:Es; [by apply split_us_ne in Es|].
    rewrite join_cons in IH. cbn [map concat]. rewrite <- app_assoc, IH. done.
  - destruct (split_us l) as [|w ws] eqn:Es; [by apply split_us_ne in Es|].
    rewrite join_cons in *. by rewrite <- app_comm_cons, IH.
Qed.

Lemma split_us_words l : Forall ascii7 l -> Forall (fun v => underscore ∉ v /\ Forall ascii7 v) (split_us l).
Proof.
  induction 1 as [|c l Hc Hl IH]; simpl.
  - constructor; [|constructor]. split; [set_solver|constructor].
  - case_decide as E.
    + constructor; [split; [set_solver|constructor]|done].
    + destruct (split_us l) as [|w ws] eqn:Es; [by apply split_us_ne in Es|].
      apply Forall_cons in IH as [[H1 H2] H3]. constructor; [|done]. split; [set_solver|by constructor].
Qed.

Lemma split_us_inner w ws : ~ occurs [underscore; underscore] (join [underscore] (w :: ws)) -> inner_words ws.
Proof.
  intros H ws1 v ws2 -> Hne ->. apply H. rewrite join_cons.
  destruct ws2 as [|v2 ws2]; [done|].
  rewrite map_app, concat_app. cbn [map concat].
  exists (length (w ++ concat (map (app [underscore]) ws1))).
  exists (w ++ concat (map (app [underscore]) ws1)), (v2 ++ concat (map (app [underscore]) ws2)).
  split; [|done]. by rewrite <- !app_assoc.
Qed.

Lemma words_exist l : Forall ascii7 l ->
  exists w ws, l = join [underscore] (w :: ws) /\ Forall (fun v => underscore ∉ v /\ Forall ascii7 v) (w :: ws).
Proof.
  intros H. destruct (split_us l) as [|w ws] eqn:E; [by apply split_us_ne in E|].
  exists w, ws. rewrite <- E. split; [by rewrite split_us_join|by apply split_us_words].
Qed.

Lemma words_bound w ws : length ws <= length (join [underscore] (w :: ws)).
Proof.
  rewrite join_cons, app_length. enough (length ws <= length (concat (map (app [underscore]) ws))) by lia.
  induction ws as [|v ws IH]; [done|]. cbn [map concat]. rewrite !app_length. cbn [length]. lia.
Qed.

Lemma camel_words_all fuel sc sep l : Forall ascii7 l -> ~ occurs [underscore; underscore] l -> length l < fuel ->
  exists ws vs,
    ws <> [] /\ Forall (fun v => underscore ∉ v) ws /\ l = join [underscore] ws /\ Forall2 capitalized ws vs /\
    to_camel_case fuel sc l sep = Ok (join sep vs).
Proof.
  intros H7 Hno Hf. destruct (words_exist l H7) as (w&ws&->&Hws).
  exists (w :: ws), (map cap (w :: ws)).
  split; [done|]. split; [eapply Forall_impl; [exact Hws|]; by intros v [? _]|]. split; [done|].
  split.
  { clear. induction (w :: ws) as [|v l IH]; [constructor|]. cbn [map]. constructor; [by apply capitalized_cap|done]. }
  apply camel_case_spec; [|done|by apply (split_us_inner w)].
  pose proof (words_bound w ws). lia.
Qed.

(** ** From camel case to words *)

Lemma isupper_7 sc c : ascii7 c -> isupper sc c = Ok (upper_code c).
Proof. intros H. unfold isupper. by rewrite cctype_7. Qed.

Lemma insert_mid (pre : text) c d post : <[length pre := d]> (pre ++ c :: post) = pre ++ d :: post.
Proof. rewrite <- (Nat.add_0_r (length pre)). by rewrite insert_app_r. Qed.

Lemma splice_ins (pre : text) l sep : splice (pre ++ l) (length pre) 0 sep = pre ++ sep ++ l.
Proof. unfold splice. rewrite take_app, Nat.add_0_r, drop_app. done. Qed.

Lemma words_loop_spec sc sep f fuel : forall pre0 rest, pre0 <> [] -> length rest < fuel -> Forall ascii7 rest ->
  words_loop fuel sc (pre0 ++ rest) sep f (length pre0) = Ok (pre0 ++ at_capitals sep f rest).
Proof.
  induction fuel as [|fuel IH]; intros pre0 rest Hne Hf H7; [lia|]. cbn [words_loop].
  destruct rest as [|c rest].
  - rewrite app_nil_r. rewrite lookup_ge_None_2 by lia. unfold at_capitals. simpl. by rewrite app_nil_r.
  - apply Forall_cons in H7 as [Hc H7]. simpl in Hf.
    rewrite list_lookup_middle by done. rewrite isupper_7 by done. cbn [rbind].
    unfold at_capitals. cbn [map concat]. fold (at_capitals sep f rest).
    destruct (upper_code c) eqn:E.
    + rewrite decide_True by (destruct pre0; [done|simpl; lia]).
      rewrite decide_True by (by apply upper_code_spec).
      rewrite insert_mid, splice_ins.
      replace (pre0 ++ sep ++ f c :: rest) with ((pre0 ++ sep ++ [f c]) ++ rest) by (by rewrite <- !app_assoc).
      replace (length pre0 + length sep + 1) with (length (pre0 ++ sep ++ [f c])) by (rewrite !app_length; simpl; lia).
      rewrite IH; [by rewrite <- !app_assoc| |lia|done].
      intros E'. by apply app_eq_nil in E' as [? _].
    + rewrite decide_False by (rewrite <- upper_code_spec; congruence).
      replace (pre0 ++ c :: rest) with ((pre0 ++ [c]) ++ rest) by (by rewrite <- !app_assoc).
      replace (length pre0 + 1) with (length (pre0 ++ [c])) by (rewrite !app_length; simpl; lia).
      rewrite IH; [by rewrite <- !app_assoc| |lia|done]. by destruct pre0.
Qed.

Lemma camel_to_words_spec fuel sc c l sep f : length l + 1 < fuel -> Forall ascii7 (c :: l) ->
  camel_to_words fuel sc (c :: l) sep f =
  Ok ((if decide (is_upper c) then f c else c) :: at_capitals sep f l).
Proof.
  intros Hf H7. apply Forall_cons in H7 as [Hc H7]. unfold camel_to_words.
  destruct fuel as [|fuel]; [lia|]. cbn [words_loop]. cbn [lookup list_lookup].
  change ((c :: l) !! 0) with (Some c). cbn iota beta.
  rewrite isupper_7 by done. cbn [rbind].
  destruct (upper_code c) eqn:E.
  - rewrite (decide_True (P := is_upper c)) by (by apply upper_code_spec).
    rewrite decide_False by lia. change (<[0:=f c]> (c :: l)) with ([f c] ++ l). simpl (0 + 1).
    apply (words_loop_spec sc sep f fuel [f c] l); [done|lia|done].
  - rewrite decide_False by (rewrite <- upper_code_spec; congruence).
    apply (words_loop_spec sc sep f fuel [c] l); [done|lia|done].
Qed.

Lemma camel_to_words_nil fuel sc sep f : 0 < fuel -> camel_to_words fuel sc [] sep f = Ok [].
Proof. intros Hf. destruct fuel; [lia|done]. Qed.

(** ** Round trips *)

Lemma snake_word_ok w : snake_word w -> underscore ∉ w /\ Forall ascii7 w.
Proof.
  destruct w as [|c w]; [done|]. intros [Hc Hw]. split.
  - rewrite not_elem_of_cons. split.
    + intros <-. unfold is_lower in Hc. change (nat_of_ascii underscore) with 95 in Hc. lia.
    + intros Hin. rewrite Forall_forall in Hw. by apply Hw in Hin as (_&_&?).
  - constructor; [unfold is_lower in Hc; unfold ascii7; lia|].
    eapply Forall_impl; [exact Hw|]. by intros x (?&_).
Qed.

Lemma at_capitals_app sep f l1 l2 : at_capitals sep f (l1 ++ l2) = at_capitals sep f l1 ++ at_capitals sep f l2.
Proof. unfold at_capitals. by rewrite map_app, concat_app. Qed.

Lemma at_capitals_none sep f l : Forall (fun x => ~ is_upper x) l -> at_capitals sep f l = l.
Proof.
  induction 1 as [|c l Hc Hl IH]; [done|]. unfold at_capitals in *. simpl. rewrite decide_False by done. simpl. by rewrite IH.
Qed.

Lemma to_upper_lower c : is_lower c -> is_upper (to_upper c) /\ to_lower (to_upper c) = c.
Proof.
  intros H. pose proof (to_upper_spec c) as [[_ H2]|[H1 _]]; [|done].
  assert (is_upper (to_upper c)) as Hu by (unfold is_lower in H; unfold is_upper; lia).
  split; [done|]. apply code_inj. pose proof (to_lower_spec (to_upper c)) as [[_ H3]|[H3 _]]; [|done].
  unfold code. lia.
Qed.

Lemma to_lower_upper c : is_upper c -> is_lower (to_lower c) /\ to_upper (to_lower c) = c.
Proof.
  intros H. pose proof (to_lower_spec c) as [[_ H2]|[H1 _]]; [|done].
  assert (is_lower (to_lower c)) as Hu by (unfold is_upper in H; unfold is_lower; lia).
  split; [done|]. apply code_inj. pose proof (to_upper_spec (to_lower c)) as [[_ H3]|[H3 _]]; [|done].
  unfold code. lia.
Qed.

Lemma snake_word_tail c w : snake_word (c :: w) -> Forall (fun x => ~ is_upper x) w /\ Forall ascii7 w.
Proof. intros [_ H]. split; (eapply Forall_impl; [exact H|]); by intros x (?&?&?). Qed.

Lemma at_capitals_cap w : snake_word w -> at_capitals [underscore] to_lower (cap w) = [underscore] ++ w.
Proof.
  destruct w as [|c w]; [done|]. intros Hw. destruct (snake_word_tail _ _ Hw) as [Ht _]. destruct Hw as [Hc _].
  destruct (to_upper_lower c Hc) as [Hu Hl].
  change (cap (c :: w)) with ([to_upper c] ++ w). rewrite at_capitals_app, (at_capitals_none _ _ w) by done.
  unfold at_capitals. cbn [map concat]. rewrite decide_True by done. rewrite Hl. by rewrite app_nil_r.
Qed.

Lemma ascii7_cap w : Forall ascii7 w -> Forall ascii7 (cap w).
Proof.
  destruct w as [|c w]; [done|]. cbn [cap]. rewrite !Forall_cons. intros [Hc Hw]. split; [|done].
  pose proof (to_upper_spec c) as [[_ H]|[_ ->]]; [|done]. unfold ascii7 in *. lia.
Qed.

Lemma snake_camel_snake fuel sc ws : ws <> [] -> Forall snake_word ws -> length (join [underscore] ws) + 1 < fuel ->
  exists out, to_camel_case fuel sc (join [underscore] ws) [] = Ok out /\
              to_snake_case fuel sc out = Ok (join [underscore] ws).
Proof.
  intros Hne Hws Hf. destruct ws as [|w ws]; [done|].
  exists (join [] (map cap (w :: ws))). split.
  - apply camel_case_spec.
    + pose proof (words_bound w ws). lia.
    + eapply Forall_impl; [exact Hws|]. apply snake_word_ok.
    + intros ws1 v ws2 -> _ ->. apply Forall_cons in Hws as [_ Hws]. apply Forall_app in Hws as [_ Hws].
      by apply Forall_cons in Hws as [? _].
  - apply Forall_cons in Hws as [Hw Hws]. cbn [map]. rewrite !join_cons in *.
    assert (concat (map (app []) (map cap ws)) = concat (map cap ws)) as ->.
    { f_equal. rewrite map_map. by apply map_ext. }
    destruct w as [|c w]; [done|]. cbn [cap app].
    destruct (snake_word_tail _ _ Hw) as [Ht H7]. destruct Hw as [Hc _].
    destruct (to_upper_lower c Hc) as [Hu Hl].
    assert (length (concat (map cap ws)) <= length (concat (map (app [underscore]) ws))) as Hlen.
    { clear. induction ws as [|v ws IH]; [done|]. cbn [map concat]. rewrite !app_length. cbn [length].
      enough (length (cap v) = length v) by lia. by destruct v. }
    unfold to_snake_case. rewrite camel_to_words_spec.
    + rewrite decide_True by done. rewrite Hl. f_equal. f_equal.
      rewrite at_capitals_app, at_capitals_none by done. f_equal.
      clear -Hws. induction Hws as [|v ws Hv Hws IH]; [done|]. cbn [map concat].
      rewrite at_capitals_app, IH. f_equal. by apply at_capitals_cap.
    + rewrite app_length in Hf. cbn [length] in Hf. rewrite app_length. lia.
    + constructor; [unfold is_upper in Hu; unfold ascii7; lia|]. apply Forall_app. split; [done|].
      clear -Hws. induction Hws as [|v ws Hv Hws IH]; [constructor|]. cbn [map concat].
      apply Forall_app. split; [|done]. apply ascii7_cap. by apply snake_word_ok.
Qed.

Definition uncap (w : text) : text := match w with [] => [] | c :: w' => to_lower c :: w' end.

Lemma camel_snake_camel fuel sc ws : ws <> [] -> Forall camel_word ws -> length (join [underscore] ws) + 1 < fuel ->
  exists out, to_snake_case fuel sc (concat ws) = Ok out /\
              to_camel_case fuel sc out [] = Ok (concat ws).
Proof.
  intros Hne Hws Hf.
  assert (Forall snake_word (map uncap ws)) as Hsn.
  { rewrite Forall_map. eapply Forall_impl; [exact Hws|]. intros [|c w] Hw; [done|]. simpl in *.
    destruct Hw as [Hc Hw]. split; [by apply to_lower_upper|done]. }
  assert (map cap (map uncap ws) = ws) as Hid.
  { rewrite map_map. rewrite <- (map_id ws) at 2. apply map_ext_in. intros w Hin.
    rewrite Forall_forall in Hws. apply elem_of_list_In, Hws in Hin. destruct w as [|c w]; [done|].
    simpl in *. f_equal. apply to_lower_upper, Hin. }
  assert (length (join [underscore] (map uncap ws)) = length (join [underscore] ws)) as Hlen.
  { destruct ws as [|w ws]; [done|]. cbn [map]. rewrite !join_cons, !app_length. f_equal; [by destruct w|].
    clear. induction ws as [|v ws IH]; [done|]. cbn [map concat]. rewrite !app_length, IH. f_equal. f_equal. by destruct v. }
  destruct (snake_camel_snake fuel sc (map uncap ws)) as (out&E1&E2).
  { by destruct ws. }
  { done. }
  { lia. }
  assert (out = concat ws) as ->.
  { destruct ws as [|w ws]; [done|].
    change (map uncap (w :: ws)) with (uncap w :: map uncap ws) in *.
    rewrite camel_case_spec in E1.
    - assert (forall a b : text, Ok a = Ok b -> b = a) as Hinj by congruence. apply Hinj in E1.
      rewrite E1, Hid, join_cons. cbn [concat]. f_equal.
      f_equal. rewrite <- (map_id ws) at 2. by apply map_ext.
    - pose proof (words_bound (uncap w) (map uncap ws)). lia.
    - eapply Forall_impl; [exact Hsn|]. apply snake_word_ok.
    - intros ws1 v ws2 E _ ->. apply Forall_cons in Hsn as [_ Hsn]. rewrite E in Hsn. apply Forall_app in Hsn as [_ Hsn].
      by apply Forall_cons in Hsn as [? _]. }
  exists (join [underscore] (map uncap ws)). split; done.
Qed.

Lemma capitalize_spec l : capitalized l (capitalize l).
Proof. apply capitalized_cap. by destruct l. Qed.

Lemma uncapitalize_spec l :
  match l, uncapitalize l with
  | [], [] => True
  | c :: l', u :: v => lower_of c u /\ v = l'
  | _, _ => False
  end.
Proof. destruct l as [|c l]; simpl; [done|]. split; [apply to_lower_spec|done]. Qed.
