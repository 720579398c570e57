(** When all casts are removed. *)
From Coq Require Import Ascii String.
From stdpp Require Import list relations.
From Verif.Base Require Import Outcome ListLemmas.
From Verif.Text Require Import Model Spec Proofs ProofsCase ProofsIndent.
From Verif.Names Require Import Model Spec Proofs ProofsCasts.
Local Open Scope res_scope.
Local Notation "⌜ s ⌝" := (list_ascii_of_string s%string).
Local Notation length := List.length.
Local Notation lp := "("%char.
Local Notation rp := ")"%char.
Local Notation dep := (depth "(" ")").

Lemma find_lp_none l pos : lp ∉ drop pos l -> find_from l [lp] pos = None.
Proof.
  intros H. destruct (find_from l [lp] pos) as [p|] eqn:E; [|done]. exfalso.
  apply find_from_char_Some in E as (H1&H2&_). apply H, elem_of_list_lookup. exists (p - pos).
  rewrite lookup_drop. by replace (pos + (p - pos)) with p by lia.
Qed.

Lemma segments_cons g t segs : segments ((g, t) :: segs) = g ++ t ++ segments segs.
Proof. unfold segments. cbn [map concat fst snd]. by rewrite app_assoc. Qed.

Lemma kept_segments_cons g t segs : kept_segments ((g, t) :: segs) = kept g t ++ t ++ kept_segments segs.
Proof. unfold kept_segments. cbn [map concat fst snd]. by rewrite app_assoc. Qed.

Lemma kept_app g t segs : Forall segment_ok segs -> kept g (t ++ segments segs) = kept g t.
Proof.
  intros H. destruct t as [|d t]; [|done]. cbn [app kept]. destruct H as [|[g' t'] segs [H1 H2] H]; [done|].
  rewrite segments_cons. destruct (group_head g' H1) as (x&->&_). cbn [app kept].
  rewrite decide_False; [done|]. intros Hd. by apply digit_not_paren in Hd as [? _].
Qed.

Lemma find_lp_segments a segs pos : lp ∉ drop pos a -> pos <= length a -> Forall segment_ok segs ->
  find_from (a ++ segments segs) [lp] pos = match segs with [] => None | _ => Some (length a) end.
Proof.
  intros Ha Hpos H. destruct H as [|[g t] segs [H1 H2] H].
  - cbn. rewrite app_nil_r. by apply find_lp_none.
  - cbn [fst snd] in *. rewrite segments_cons. destruct (group_head g H1) as (x&->&_).
    assert (length (take pos a) = pos) as Hl by (rewrite take_length; lia).
    pose proof (find_from_app_Some [lp] (take pos a) (drop pos a) (x ++ t ++ segments segs)) as HF.
    rewrite Hl, (app_assoc (take pos a) (drop pos a)), take_drop in HF.
    change ((lp :: x) ++ t ++ segments segs) with ([lp] ++ (x ++ t ++ segments segs)).
    rewrite HF by by apply first_at_char.
    f_equal. rewrite drop_length. lia.
Qed.

Lemma enum_step sc fuel t g post pos : lp ∉ drop pos t -> pos <= length t -> group g -> Forall ascii7 post ->
  remove_enum_spec_loop sc (S fuel) (t ++ g ++ post) pos =
  match post with
  | d :: _ => if decide (a_digit d) then remove_enum_spec_loop sc fuel (t ++ post) (length t + length g)
              else Ok (t ++ g ++ post)
  | [] => Ok (t ++ g ++ post)
  end.
Proof.
  intros Ht Hpos Hg H7. cbn [remove_enum_spec_loop]. rewrite matched_at by done.
  pose proof (group_len g Hg). destruct post as [|d post].
  - rewrite decide_False by (rewrite app_nil_r, app_length; lia). done.
  - rewrite decide_True by (rewrite !app_length; simpl; lia).
    rewrite (char_at_lt _ _ d).
    2: { rewrite app_assoc, <- app_length. by apply list_lookup_middle. }
    cbn [rbind]. apply Forall_cons in H7 as [H7 _]. rewrite isdigit_7 by done. cbn [rbind].
    replace (length t + length g - length t) with (length g) by lia. rewrite erase_group.
    case_bool_decide as Hd; [by rewrite decide_True|by rewrite decide_False].
Qed.

Lemma gaps_tail s segs : gaps (s :: segs) -> gaps segs.
Proof. destruct s as [g t], segs; [done|]. cbn. by intros [_ H]. Qed.

Lemma matched_none l pos : lp ∉ drop pos l -> find_matched_delimiters l "(" ")" pos = None.
Proof. intros H. unfold find_matched_delimiters. by rewrite find_lp_none. Qed.

Lemma not_elem_drop (x : char) n l : x ∉ l -> x ∉ drop n l.
Proof. intros H Hin. apply H. rewrite <- (take_drop n l), elem_of_app. by right. Qed.

Lemma enum_segments sc segs : forall fuel t pos, length segs < fuel -> lp ∉ t -> pos <= length t ->
  Forall segment_ok segs -> gaps segs -> Forall ascii7 (segments segs) ->
  exists t' rest, remove_enum_spec_loop sc fuel (t ++ segments segs) pos = Ok (t' ++ segments rest) /\
    lp ∉ t' /\ Forall segment_ok rest /\ gaps rest /\ Forall ascii7 (segments rest) /\
    t' ++ kept_segments rest = t ++ kept_segments segs.
Proof.
  induction segs as [|[g s] segs IH]; intros fuel t pos Hf Ht Hpos Hok Hgap H7; (destruct fuel as [|fuel]; [lia|]).
  - exists t, []. split; [|done]. cbn [remove_enum_spec_loop]. change (segments []) with (@nil ascii). rewrite app_nil_r.
    rewrite matched_none by by apply not_elem_drop. done.
  - pose proof Hok as Hall. apply Forall_cons in Hok as [[H1 H2] Hok]. cbn [fst snd] in *.
    assert (exists t' rest, Ok (t ++ segments ((g, s) :: segs)) = Ok (t' ++ segments rest) /\
      lp ∉ t' /\ Forall segment_ok rest /\ gaps rest /\ Forall ascii7 (segments rest) /\
      t' ++ kept_segments rest = t ++ kept_segments ((g, s) :: segs)) as Hstop.
    { exists t, ((g, s) :: segs). done. }
    pose proof H7 as H7a. rewrite segments_cons in *. rewrite !Forall_app in H7. destruct H7 as (H71&H72&H73).
    rewrite enum_step; [|by apply not_elem_drop|done|done|by rewrite Forall_app].
    destruct (s ++ segments segs) as [|d post] eqn:E; [done|]. rewrite <- E in *.
    destruct (decide (a_digit d)) as [Hd|Hd]; [|done].
    assert (kept g s = []) as Hk.
    { rewrite <- (kept_app g s segs Hok), E. cbn [kept]. by rewrite decide_True. }
    assert (t ++ kept_segments ((g, s) :: segs) = (t ++ s) ++ kept_segments segs) as Es.
    { rewrite kept_segments_cons, Hk. by rewrite <- app_assoc. }
    rewrite Es. rewrite app_assoc.
    assert (lp ∉ t ++ s) as Hts by (rewrite elem_of_app; tauto).
    destruct segs as [|s2 segs].
    + exists (t ++ s), []. split; [|done]. change (segments []) with (@nil ascii). rewrite app_nil_r.
      destruct fuel as [|fuel]; [simpl in Hf; lia|]. cbn [remove_enum_spec_loop].
      rewrite matched_none by by apply not_elem_drop. done.
    + apply IH; [simpl in *; lia|done| |done|by apply gaps_tail in Hgap|done].
      cbn [gaps] in Hgap. destruct Hgap as [[Hgap|Hgap] _].
      * exfalso. rewrite Hk in Hgap. subst g. apply group_len in H1. simpl in H1. lia.
      * rewrite app_length. lia.
Qed.

Lemma segments_len segs : Forall segment_ok segs -> length segs <= length (segments segs).
Proof.
  induction 1 as [|[g t] segs [H1 H2] _ IH]; [done|]. rewrite segments_cons, !app_length. apply group_len in H1.
  cbn [fst snd List.length] in *. lia.
Qed.

Lemma parens_segments sc segs : forall s pre fuel, length (segments (s :: segs)) + 2 <= fuel ->
  Forall segment_ok (s :: segs) -> gaps (s :: segs) -> Forall ascii7 (segments (s :: segs)) ->
  parens_loop sc fuel (pre ++ segments (s :: segs)) (length pre) (length pre) 0 = Ok (pre ++ kept_segments (s :: segs)).
Proof.
  induction segs as [|s2 segs IH]; intros [g t] pre fuel Hf Hok Hgap H7.
  - apply Forall_cons in Hok as [[H1 H2] Hok]. cbn [fst snd] in *. rewrite segments_cons, kept_segments_cons in *.
    change (segments []) with (@nil ascii) in *. change (kept_segments []) with (@nil ascii). rewrite app_nil_r in *.
    rewrite app_length in Hf. rewrite parens_group by (done || lia). rewrite finish_group by (rewrite Forall_app in H7; tauto).
    rewrite find_lp_none; [done|].
    destruct (decide (kept g t = g)) as [->|Hk].
    + rewrite app_assoc, <- app_length, drop_app. done.
    + assert (kept g t = []) as ->. { unfold kept in *. destruct t; [done|]. case_decide; done. }
      rewrite app_nil_l. replace (length pre + length g) with (length g + length pre) by lia.
      rewrite (Nat.add_comm (length g)), <- drop_drop, drop_app. by apply not_elem_drop.
  - apply Forall_cons in Hok as [[H1 H2] Hok]. cbn [fst snd] in *. pose proof (gaps_tail _ _ Hgap) as Hgap2.
    rewrite (segments_cons g t), (kept_segments_cons g t) in *.
    rewrite !app_length in Hf. rewrite !Forall_app in H7. destruct H7 as (H71&H72&H73).
    rewrite parens_group by (done || lia). rewrite finish_group by by rewrite Forall_app.
    rewrite kept_app by done.
    destruct (decide (kept g t = g)) as [Ek|Hk].
    + rewrite Ek. rewrite !app_assoc. rewrite find_lp_segments; [|..|done].
      2: { rewrite <- app_length, drop_app. done. }
      2: { rewrite !app_length. lia. }
      rewrite IH; [done| |done|done|done]. lia.
    + assert (kept g t = []) as Ek. { unfold kept in *. destruct t; [done|]. case_decide; done. }
      rewrite Ek. cbn [app]. cbn [gaps] in Hgap. destruct Hgap as [[Hgap|Hgap] _]; [done|].
      rewrite !app_assoc. rewrite find_lp_segments; [|..|done].
      2: { rewrite <- drop_drop, drop_app. by apply not_elem_drop. }
      2: { rewrite app_length. lia. }
      rewrite IH; [done| |done|done|done]. lia.
Qed.

Lemma remove_casts_segments sc t segs : lp ∉ t -> Forall segment_ok segs -> gaps segs -> Forall ascii7 (segments segs) ->
  remove_casts sc (t ++ segments segs) = Ok (t ++ kept_segments segs).
Proof.
  intros Ht Hok Hgap H7. unfold remove_casts. rewrite find_lp_segments; [|by apply not_elem_drop|lia|done].
  destruct segs as [|s segs]; [done|]. apply parens_segments; [|done..]. rewrite app_length. lia.
Qed.

Lemma both_segments sc t segs : lp ∉ t -> Forall segment_ok segs -> gaps segs -> Forall ascii7 (segments segs) ->
  both sc (t ++ segments segs) = Ok (t ++ kept_segments segs).
Proof.
  intros Ht Hok Hgap H7. unfold both, remove_enum_spec.
  destruct (enum_segments sc segs (S (length (t ++ segments segs))) t 0) as (t'&rest&->&H1&H2&H3&H4&H5); [|done|lia|done..|].
  { rewrite app_length. apply segments_len in Hok. lia. }
  cbn [rbind]. rewrite remove_casts_segments by done. by rewrite H5.
Qed.

(** Two texts in brackets. *)
Lemma both_two sc t0 g1 t1 g2 t2 : lp ∉ t0 -> group g1 -> lp ∉ t1 -> group g2 -> lp ∉ t2 ->
  (forall x, ~ uncast g2 x) -> Forall ascii7 (g1 ++ t1 ++ g2 ++ t2) ->
  both sc (t0 ++ g1 ++ t1 ++ g2 ++ t2) = Ok (t0 ++ kept g1 t1 ++ t1 ++ kept g2 t2 ++ t2).
Proof.
  intros H0 Hg1 H1 Hg2 H2 Hflat H7.
  assert (Forall segment_ok [(g1, t1); (g2, t2)]) as Hok by by rewrite !Forall_cons.
  assert (Forall segment_ok [(g2, t2)]) as Hok2 by by rewrite !Forall_cons.
  assert (forall a b c d : text, segments [(a, b); (c, d)] = a ++ b ++ c ++ d) as Es.
  { intros. rewrite !segments_cons. change (segments []) with (@nil ascii). by rewrite app_nil_r. }
  assert (gaps [(g1, t1); (g2, t2)] ->
          both sc (t0 ++ g1 ++ t1 ++ g2 ++ t2) = Ok (t0 ++ kept g1 t1 ++ t1 ++ kept g2 t2 ++ t2)) as Hgap.
  { intros Hgap. rewrite <- (Es g1 t1 g2 t2). rewrite both_segments; [|done|done|done|by rewrite Es].
    rewrite !kept_segments_cons. change (kept_segments []) with (@nil ascii). by rewrite app_nil_r. }
  destruct (decide (kept g1 t1 = g1)) as [Ek|Hk]; [apply Hgap; cbn [gaps]; tauto|].
  destruct (decide (length g1 <= length t1)) as [Hle|Hlt]; [apply Hgap; cbn [gaps]; tauto|]. clear Hgap.
  destruct t1 as [|d t1]; [done|]. cbn [kept] in Hk. destruct (decide (a_digit d)) as [Hd|]; [|done]. clear Hk.
  cbn [kept]. rewrite (decide_True (P := a_digit d)) by done. rewrite app_nil_l.
  rewrite !Forall_app in H7. destruct H7 as (H71&H72&H73&H74).
  unfold both, remove_enum_spec. rewrite enum_step; [|by apply not_elem_drop|lia|done|by rewrite !Forall_app].
  cbn [app]. rewrite decide_True by done.
  change (d :: t1 ++ g2 ++ t2) with ((d :: t1) ++ g2 ++ t2). set (t1' := d :: t1) in *.
  assert (remove_enum_spec_loop sc (length (t0 ++ g1 ++ t1' ++ g2 ++ t2)) (t0 ++ t1' ++ g2 ++ t2) (length t0 + length g1) =
          Ok (t0 ++ t1' ++ g2 ++ t2)) as ->.
  { destruct (length (t0 ++ g1 ++ t1' ++ g2 ++ t2)) as [|fuel] eqn:El.
    { rewrite !app_length in El. apply group_len in Hg1. lia. }
    clear El. cbn [remove_enum_spec_loop].
    destruct (find_matched_delimiters (t0 ++ t1' ++ g2 ++ t2) "(" ")" (length t0 + length g1)) as [[p e]|] eqn:Em; [|done].
    case_decide as Hc; [|done]. destruct Hc as [Hc1 Hc2].
    pose proof (matched_bounds _ _ _ _ _ _ Em) as [Hb _].
    destruct (matched_group _ _ _ _ Em Hc1) as (pre&g&post&Ep&Hg&Hl1&Hl2).
    (* the bracket is inside the second text in brackets *)
    destruct (group_head g Hg) as (g'&Egg&_).
    assert (exists a b, g2 = a ++ lp :: b /\ a <> [] /\ lp :: b ++ t2 = g ++ post) as (a&b&E2&Ha&E3).
    { assert (exists a, pre = (t0 ++ t1') ++ a /\ a <> [] /\ a ++ g ++ post = g2 ++ t2) as (a&->&Ha&Ea).
      { exists (drop (length (t0 ++ t1')) pre).
        assert (take (length (t0 ++ t1')) pre = t0 ++ t1') as Et.
        { apply (f_equal (take (length (t0 ++ t1')))) in Ep. rewrite app_assoc, take_app in Ep.
          rewrite take_app_le in Ep by (rewrite app_length; lia). done. }
        split; [by rewrite <- Et at 1; rewrite take_drop|]. split.
        - intros Hn. apply (f_equal length) in Hn. rewrite drop_length, app_length in Hn. change (length []) with 0 in Hn. lia.
        - apply (f_equal (drop (length (t0 ++ t1')))) in Ep. rewrite app_assoc, drop_app in Ep.
          rewrite drop_app_le in Ep by (rewrite app_length; lia). by rewrite Ep. }
      assert (length a < length g2) as Hal.
      { apply Nat.nle_gt. intros Hge. apply H2. rewrite Egg in Ea.
        apply (f_equal (.!! length a)) in Ea. rewrite lookup_app_r in Ea by lia. rewrite Nat.sub_diag in Ea. cbn in Ea.
        rewrite lookup_app_r in Ea by lia. symmetry in Ea. by apply elem_of_list_lookup_2 in Ea. }
      exists a, (drop (S (length a)) g2).
      assert (g2 !! length a = Some lp) as Hx.
      { apply (f_equal (.!! length a)) in Ea. rewrite lookup_app_r in Ea by lia. rewrite Nat.sub_diag, Egg in Ea. cbn in Ea.
        rewrite lookup_app_l in Ea by lia. done. }
      assert (take (length a) g2 = a) as Ht.
      { apply (f_equal (take (length a))) in Ea. rewrite take_app, take_app_le in Ea by lia. done. }
      assert (g2 = a ++ lp :: drop (S (length a)) g2) as E2.
      { rewrite <- Ht at 1. symmetry. by apply take_drop_middle. }
      split; [done|]. split; [done|]. apply (app_inv_head a). rewrite Ea, app_comm_cons, app_assoc, <- E2. done. }
    assert (length g < length (lp :: b)) as Hlen.
    { apply Nat.nle_gt. intros Hge.
      assert (g = (lp :: b) ++ drop (length (lp :: b)) g) as Eg.
      { rewrite <- (take_drop (length (lp :: b)) g) at 1. f_equal.
        apply (f_equal (take (length (lp :: b)))) in E3. change (lp :: b ++ t2) with ((lp :: b) ++ t2) in E3.
        rewrite take_app, take_app_le in E3 by lia. done. }
      pose proof (group_prefix_nonneg (lp :: b) (drop (length (lp :: b)) g)) as Hnn. rewrite <- Eg in Hnn.
      specialize (Hnn Hg). assert (0 < dep a)%Z as Hda. { rewrite E2 in Hg2. by apply (group_prefix _ _ Hg2). }
      destruct Hg2 as (_&Hg2&_). rewrite E2, depth_app in Hg2. lia. }
    assert (exists x rest, lp :: b = g ++ x :: rest) as (x&rest&Eb).
    { destruct (drop (length g) (lp :: b)) as [|x rest] eqn:Ed.
      - exfalso. apply (f_equal length) in Ed. rewrite drop_length in Ed. simpl in *. lia.
      - exists x, rest. rewrite <- Ed. rewrite <- (take_drop (length g) (lp :: b)) at 1. f_equal.
        apply (f_equal (take (length g))) in E3. change (lp :: b ++ t2) with ((lp :: b) ++ t2) in E3.
        rewrite take_app, take_app_le in E3 by lia. done. }
    assert (~ a_digit x) as Hx.
    { intros Hx. apply (Hflat (a ++ x :: rest)). exists a, g, x, rest. rewrite E2, Eb. done. }
    assert (post = x :: rest ++ t2) as ->.
    { change (lp :: b ++ t2) with ((lp :: b) ++ t2) in E3. rewrite Eb, <- app_assoc in E3. simplify_list_eq. done. }
    rewrite (char_at_lt _ _ x).
    2: { rewrite Ep, <- Hl2. rewrite app_assoc, <- app_length. by apply list_lookup_middle. }
    cbn [rbind]. rewrite isdigit_7.
    2: { rewrite E2, Eb in H73. rewrite !Forall_app, Forall_cons in H73. tauto. }
    rewrite bool_decide_eq_false_2 by done. done. }
  cbn [rbind]. rewrite app_assoc.
  assert (segments [(g2, t2)] = g2 ++ t2) as <-.
  { rewrite segments_cons. change (segments []) with (@nil ascii). by rewrite app_nil_r. }
  rewrite remove_casts_segments; [|rewrite elem_of_app; tauto|done|done|].
  - rewrite kept_segments_cons. change (kept_segments []) with (@nil ascii). rewrite app_nil_r. by rewrite <- app_assoc.
  - rewrite segments_cons. change (segments []) with (@nil ascii). rewrite app_nil_r. by rewrite Forall_app.
Qed.
