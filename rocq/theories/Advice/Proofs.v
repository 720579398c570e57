From Coq Require Import Ascii String ZArith.
From stdpp Require Import list.
From Verif.Base Require Import Outcome Order ListLemmas.
From Verif.Text Require Import Model.
From Verif.Log Require Model SpecText ProofsText.
From Verif.Advice Require Import Model Spec.
Local Open Scope res_scope.
Local Notation "⌜ s ⌝" := (list_ascii_of_string s%string).

Section platform.
  Context (p : platform) (Hs : sane p).
  Local Open Scope Z_scope.

  Lemma half_bounds : exists s i l ll : Z,
    half p Short = s /\ half p UShort = s /\ half p Int = i /\ half p UInt = i /\ half p Long = l /\ half p ULong = l /\
    half p LLong = ll /\ half p ULLong = ll /\ 128 <= s /\ s <= i /\ 32768 <= i /\ i <= l /\ l <= ll /\ (s = i \/ 2 * s <= i).
  Proof using Hs.
    destruct Hs as (H1 & H2 & H3 & H4 & H5).
    exists (2 ^ (w_short p - 1)), (2 ^ (w_int p - 1)), (2 ^ (w_long p - 1)), (2 ^ (w_llong p - 1)).
    unfold half. cbn [width]. repeat (split; [done|]).
    split; [change 128 with (2 ^ 7); apply Z.pow_le_mono_r; lia|].
    split; [apply Z.pow_le_mono_r; lia|]. split; [change 32768 with (2 ^ 15); apply Z.pow_le_mono_r; lia|].
    split; [apply Z.pow_le_mono_r; lia|]. split; [apply Z.pow_le_mono_r; lia|].
    destruct (decide (w_short p = w_int p)) as [-> |]; [by left|right].
    rewrite <- Z.pow_succ_r by lia. apply Z.pow_le_mono_r; lia.
  Qed.

  Lemma holds_half t z : holds p t z <-> floating t = false /\ least p t <= z <= greatest p t.
  Proof using Hs.
    unfold holds, least, greatest, half. destruct (floating t) eqn:E; [naive_solver|].
    assert (W : 1 <= width p t). { destruct Hs. destruct t; cbn in *; try done; lia. }
    assert (P : 2 ^ width p t = 2 * 2 ^ (width p t - 1)).
    { rewrite <- Z.pow_succ_r by lia. f_equal. lia. }
    rewrite P. destruct (is_signed p t); split; intros [_ ?]; split; done || lia.
  Qed.

  Lemma utilize_same t : utilize p t t = true.
  Proof. unfold utilize, common_type. rewrite decide_True by done. by rewrite bool_decide_true. Qed.

  Lemma utilize_floating a t : floating a = true -> floating t = true -> utilize p a t = true <-> ~ narrowing p t a.
  Proof. destruct a, t; try done; intros _ _; unfold utilize, narrowing; cbn; naive_solver. Qed.

  Lemma utilize_truncation a t : floating a = false -> floating t = true -> utilize p a t = false.
  Proof. destruct a, t; done. Qed.

  Ltac start :=
    let s := fresh "s" in let i := fresh "i" in let l := fresh "l" in let ll := fresh "ll" in
    destruct half_bounds as (s & i & l & ll & E1 & E2 & E3 & E4 & E5 & E6 & E7 & E8 & B1 & B2 & B3 & B4 & B5 & B6).

  Lemma least_eq t : least p t = if is_signed p t then - half p t else 0.
  Proof. done. Qed.

  (** The comparison of ranks. *)
  Lemma utilize_cases a t : floating a = false -> floating t = false -> utilize p a t = true ->
    a = t \/
    (rank Int <= rank a /\ least p a <= least p t /\ greatest p t <= greatest p a) \/
    (rank Int <= rank a /\ is_signed p t = true /\ is_signed p a = false /\ half p t <= half p a).
  Proof using Hs.
    intros Fa Ft H%bool_decide_eq_true. destruct (decide (a = t)) as [|Hn]; [by left|right].
    start. unfold common_type in H. rewrite decide_False in H by done. rewrite Fa, Ft in H.
    assert (HB : half p Bool = 1) by done. assert (H8 : half p Char = 128) by done.
    assert (H8s : half p SChar = 128) by done. assert (H8u : half p UChar = 128) by done.
    unfold promote, least, greatest in *.
    destruct (char_signed p) eqn:Ec; destruct a; try done; destruct t; try done; cbn [rank is_signed Z.ltb Z.compare Pos.compare Pos.compare_cont] in *;
      rewrite ?Ec, ?E1, ?E2, ?E3, ?E4, ?E5, ?E6, ?E7, ?E8, ?HB, ?H8, ?H8s, ?H8u in *;
      repeat match type of H with context [if (?x <=? ?y) && (?z <=? ?w) then _ else _] =>
        destruct (x <=? y) eqn:?; destruct (z <=? w) eqn:?; cbn [andb] in H end;
      cbn in H; rewrite ?Ec in H; cbn in H;
      repeat match type of H with context [if ?x <=? ?y then _ else _] => destruct (x <=? y) eqn:?; cbn in H end;
      try discriminate; lia.
  Qed.

  Lemma utilize_integers a t : floating a = false -> floating t = false -> (is_signed p t = true -> is_signed p a = true) ->
    utilize p a t = true -> ~ narrowing p t a.
  Proof using Hs.
    intros Fa Ft Hsg H. unfold narrowing. rewrite Ft, Fa. intros (z & H1%holds_half & H2). apply H2, holds_half.
    destruct (utilize_cases a t Fa Ft H) as [-> |[(_ & L & G)|(_ & S1 & S2 & _)]]; [done| |].
    - split; [done|]. lia.
    - rewrite (Hsg S1) in S2. discriminate.
  Qed.

  Lemma width_pos t : floating t = false -> 1 <= width p t.
  Proof using Hs. intros F. destruct Hs. destruct t; cbn in *; try done; lia. Qed.

  Lemma half_pos t : floating t = false -> 1 <= half p t.
  Proof using Hs.
    intros F. unfold half. assert (W : 1 <= width p t). { destruct Hs. destruct t; cbn in *; try done; lia. }
    pose proof (Z.pow_pos_nonneg 2 (width p t - 1)). lia.
  Qed.

  Lemma seen_eq a z : a <> Bool -> seen p a z =
    let m := z mod (2 * half p a) in if is_signed p a && (half p a <=? m) then m - 2 * half p a else m.
  Proof. by destruct a. Qed.

  Lemma seen_in a z : floating a = false -> least p a <= z <= greatest p a -> seen p a z = z.
  Proof using Hs.
    intros F. pose proof (half_pos a F) as P. unfold least, greatest, seen.
    assert (HB : half p Bool = 1) by done.
    destruct (decide (a = Bool)) as [-> |Hb].
    { cbn [is_signed]. rewrite HB. intros H. destruct (Z.eqb_spec z 0); lia. }
    change (least p a <= z <= greatest p a -> seen p a z = z). rewrite seen_eq by done. unfold least, greatest.
    cbn zeta. destruct (is_signed p a); cbn [andb]; intros H; [|rewrite Z.mod_small; lia].
    destruct (Z_lt_le_dec z 0).
    - rewrite <- (Z.mod_unique z (2 * half p a) (-1) (z + 2 * half p a)) by lia. destruct (Z.leb_spec (half p a) (z + 2 * half p a)); lia.
    - rewrite Z.mod_small by lia. destruct (Z.leb_spec (half p a) z); lia.
  Qed.

  Lemma utilize_seen a t z : utilize p a t = true -> floating a = false -> holds p t z ->
    seen p a z = z \/
    (z < 0 /\ is_signed p a = false /\ seen p a z = z + 2 ^ width p a /\ holds p a (seen p a z)).
  Proof using Hs.
    intros H Fa Hz. pose proof Hz as [Ft Hr]%holds_half.
    destruct (utilize_cases a t Fa Ft H) as [-> |[(_ & L & G)|(R & S1 & S2 & Hh)]].
    - left. by apply seen_in.
    - left. apply seen_in; [done|]. lia.
    - pose proof (half_pos a Fa) as P. unfold least, greatest in Hr. rewrite S1 in Hr.
      destruct (Z_lt_le_dec z 0) as [Hn|Hn].
      + right. split; [done|]. split; [done|].
        assert (W : 2 ^ width p a = 2 * half p a).
        { unfold half. rewrite <- Z.pow_succ_r; [f_equal; lia|]. pose proof (width_pos a Fa). lia. }
        assert (Se : seen p a z = z + 2 * half p a).
        { unfold seen. destruct a; try done; cbn zeta; rewrite S2; cbn [andb]; symmetry; apply (Z.mod_unique _ _ (-1)); lia. }
        rewrite W. split; [done|]. apply holds_half. rewrite Se. split; [done|]. unfold least, greatest. rewrite S2. lia.
      + left. apply seen_in; [done|]. unfold least, greatest. rewrite S2. lia.
  Qed.

  (** More bits. *)
  Lemma utilize_wider a t : floating a = false -> floating t = false -> rank Int <= rank a -> width p t < width p a ->
    (is_signed p t = true -> is_signed p a = true) -> utilize p a t = true.
  Proof using Hs.
    intros Fa Ft R W Sg. apply bool_decide_eq_true.
    assert (Hn : a <> t) by (intros ->; lia).
    assert (HW : half p t < half p a).
    { unfold half. pose proof (width_pos t Ft). apply Z.pow_lt_mono_r; lia. }
    assert (HW2 : 2 * half p t <= half p a).
    { unfold half. rewrite <- Z.pow_succ_r; [|pose proof (width_pos t Ft); lia]. apply Z.pow_le_mono_r; lia. }
    start. unfold common_type. rewrite decide_False by done. rewrite Fa, Ft.
    assert (HB : half p Bool = 1) by done. assert (H8 : half p Char = 128) by done.
    assert (H8s : half p SChar = 128) by done. assert (H8u : half p UChar = 128) by done.
    unfold promote, least, greatest in *. cbn zeta.
    destruct (char_signed p) eqn:Ec; destruct a; try done; destruct t; try done;
      cbn [rank is_signed Z.ltb Z.compare Pos.compare Pos.compare_cont] in *; try lia;
      rewrite ?Ec, ?E1, ?E2, ?E3, ?E4, ?E5, ?E6, ?E7, ?E8, ?HB, ?H8, ?H8s, ?H8u in *; try (by specialize (Sg eq_refl));
      repeat match goal with |- context [if (?x <=? ?y) && (?z <=? ?w) then _ else _] =>
        destruct (x <=? y) eqn:?; destruct (z <=? w) eqn:?; cbn [andb]; try lia end;
      cbn; rewrite ?Ec, ?E4; cbn;
      repeat match goal with |- context [if ?x <=? ?y then _ else _] => destruct (x <=? y) eqn:?; cbn end;
      try done; lia.
  Qed.
End platform.

(** ** Texts *)
Local Notation given := SpecText.given.

Lemma lines_two s t : s <> [] -> t <> [] -> Log.Model.append_lines_ s [t] = Ok (s ++ [nl] ++ t).
Proof. intros Hs Ht. rewrite ProofsText.append_lines__spec. destruct s, t; done. Qed.
Lemma lines_one s : s <> [] -> Log.Model.append_lines_ s [[]] = Ok s.
Proof. intros Hs. rewrite ProofsText.append_lines__spec. destruct s; done. Qed.

Lemma prediction_spec o q : prediction_message o q = Ok (⌜"Obtained : "⌝ ++ o ++ [nl] ++ ⌜"Predicted: "⌝ ++ q).
Proof. unfold prediction_message. rewrite lines_two by done. by rewrite <- (assoc_L app ⌜"Obtained : "⌝). Qed.

Lemma reporter_spec final c o q : failure_reporter final c o q =
  Ok (match c with
      | EqualTo => ⌜"operator== returned false"⌝ ++ if final then [nl] ++ body c o q else []
      | _ => body c o q
      end).
Proof.
  destruct c; unfold failure_reporter, relational_failure_message, body, predicted; cbn [symbol];
    rewrite ?prediction_spec; cbn [rbind]; try done.
  - destruct final; [|done]. rewrite lines_two by done. done.
  - f_equal. rewrite <- !(assoc_L app). done.
Qed.

Lemma append_spec d m : m <> [] ->
  append_to d m =
  Ok (m ++ match advice d with [] => [] | _ => match prefix d with [] => advice d | _ => [nl] ++ prefix d ++ advice d end end).
Proof.
  intros Hm. unfold append_to. destruct (advice d) as [|a adv] eqn:Ea; [by rewrite app_nil_r|].
  destruct (prefix d) as [|c pre] eqn:Ep.
  - by rewrite lines_one.
  - rewrite lines_two by done. cbn [rbind]. f_equal. rewrite <- !(assoc_L app). done.
Qed.

Lemma passed_spec final c o q d : binary_comparison final c true o q d = Ok [LogCheck].
Proof. done. Qed.

Lemma failed_spec final c o q d : binary_comparison final c false o q d =
  Ok [LogCheck; LogFailure (
    (match c with
     | EqualTo => ⌜"operator== returned false"⌝ ++ if final then [nl] ++ body c o q else []
     | _ => body c o q
     end) ++ match advice d with [] => [] | _ => match prefix d with [] => advice d | _ => [nl] ++ prefix d ++ advice d end end)].
Proof.
  unfold binary_comparison. rewrite reporter_spec. cbn [rbind]. rewrite append_spec; [done|]. destruct c; done.
Qed.

(** The first newline. *)
Lemma first_line (a b r s : text) : one_line a -> one_line b -> a ++ [nl] ++ r = b ++ [nl] ++ s -> a = b /\ r = s.
Proof.
  revert b. induction a as [|c a IH]; intros [|d b] Ha Hb E; cbn in E.
  - injection E as E. done.
  - injection E as <- E. exfalso. apply Hb. by left.
  - injection E as -> E. exfalso. apply Ha. by left.
  - injection E as -> E. destruct (IH b) as [-> ->]; [|by intros ?; apply Hb; right| |done].
    + intros ?; apply Ha; by right.
    + done.
Qed.

Lemma body_told_apart c c' o o' q q' : one_line o -> one_line o' -> body c o q = body c' o' q' ->
  o = o' /\ predicted c q = predicted c' q'.
Proof.
  unfold body. intros H H' E%app_inv_head. apply first_line in E as [-> E]; [|done..]. by apply app_inv_head in E.
Qed.

Lemma relation_told_apart c c' o o' q q' r : one_line o -> one_line o' ->
  symbol c <> None -> symbol c' <> None ->
  failure_reporter true c o q = Ok r -> failure_reporter true c' o' q' = Ok r -> c = c' /\ o = o' /\ q = q'.
Proof.
  intros H H' Hc Hc'. rewrite !reporter_spec. intros [= <-] [= E].
  assert (B : body c o q = body c' o' q') by (destruct c, c'; done).
  apply body_told_apart in B as [-> B]; [|done..].
  destruct c, c'; try done; cbn in B; injection B as B; subst; done.
Qed.

Lemma equality_told_apart o o' q q' r c : one_line o -> one_line o' ->
  failure_reporter true EqualTo o q = Ok r -> failure_reporter true c o' q' = Ok r -> c = EqualTo /\ o = o' /\ q = q'.
Proof.
  intros H H'. rewrite !reporter_spec. intros [= <-] [= E].
  assert (c = EqualTo) as ->. { destruct c; done. }
  split; [done|].
  assert (B : body EqualTo o q = body EqualTo o' q') by congruence.
  apply body_told_apart in B as [-> B]; done.
Qed.

(** The first space. *)
Lemma first_space (a b r s : text) : " "%char ∉ a -> " "%char ∉ b -> a ++ " "%char :: r = b ++ " "%char :: s -> a = b /\ r = s.
Proof.
  revert b. induction a as [|c a IH]; intros [|d b] Ha Hb E; cbn in E.
  - injection E as E. done.
  - injection E as <- E. exfalso. apply Hb. by left.
  - injection E as -> E. exfalso. apply Ha. by left.
  - injection E as -> E. destruct (IH b) as [-> ->]; [|by intros ?; apply Hb; right|done|done].
    intros ?; apply Ha; by right.
Qed.

Lemma tolerance_told_apart o o' q q' t t' r : one_line o -> one_line o' -> " "%char ∉ q -> " "%char ∉ q' ->
  failure_reporter true (Within t) o q = Ok r -> failure_reporter true (Within t') o' q' = Ok r -> o = o' /\ q = q' /\ t = t'.
Proof.
  intros H H' Hq Hq'. rewrite !reporter_spec. intros [= <-] [= E]. 
  assert (B : body (Within t) o q = body (Within t') o' q') by (unfold body; cbn; congruence).
  apply body_told_apart in B as [-> B]; [|done..]. split; [done|]. cbn [predicted] in B.
  apply first_space in B as [-> B]; [|done..]. by injection B as ->.
Qed.
