(** Numbers of the command line *)
From Coq Require Import Ascii String ZArith DecimalN DecimalFacts.
From stdpp Require Import list sets.
From Verif.Base Require Import Outcome ListLemmas.
From Verif.Text Require Import Model.
From Verif.Failure Require Model Proofs.
From Verif.Commands Require Import Model Spec.
Local Notation "⌜ s ⌝" := (list_ascii_of_string s%string).
Local Notation length := List.length.
Local Notation digits := Failure.Model.digits.
Local Notation take_digits := Failure.Model.take_digits.
Local Notation skip_space := Failure.Model.skip_space.
Local Notation is_space := Failure.Model.is_space.
Local Notation digit := Failure.Model.digit.

Definition chars : list ascii := map ascii_of_nat (seq 0 256).
Lemma all_chars (c : ascii) : c ∈ chars.
Proof.
  unfold chars. apply elem_of_list_In, in_map_iff. exists (nat_of_ascii c). split; [apply ascii_nat_embedding|].
  apply in_seq. pose proof (nat_ascii_bounded c). lia.
Qed.
Lemma for_chars (P : ascii -> bool) : forallb P chars = true -> forall c, P c = true.
Proof. intros H c. rewrite forallb_forall in H. apply H, elem_of_list_In, all_chars. Qed.

Lemma is_space_white c : is_space c = true <-> white c.
Proof.
  rewrite <-(bool_decide_eq_true (white c)). 
  assert (forall c, Bool.eqb (is_space c) (bool_decide (white c)) = true) as H; [|by rewrite (eqb_prop _ _ (H c))].
  apply for_chars. by vm_compute.
Qed.
Lemma digit_is_digit c : digit c <> None <-> is_digit c.
Proof.
  rewrite <-(bool_decide_eq_true (is_digit c)). 
  assert (forall c, Bool.eqb (match digit c with Some _ => true | None => false end) (bool_decide (is_digit c)) = true) as H.
  { apply for_chars. by vm_compute. }
  specialize (H c). apply eqb_prop in H. rewrite <-H. destruct (digit c); done.
Qed.
Lemma digit_not_space c : is_digit c -> ~ white c /\ c <> "-"%char /\ c <> "+"%char.
Proof.
  intros Hd.
  assert (forall c, implb (bool_decide (is_digit c)) (bool_decide (~ white c /\ c <> "-"%char /\ c <> "+"%char)) = true) as H.
  { apply for_chars. by vm_compute. }
  specialize (H c). rewrite (bool_decide_eq_true_2 _ Hd) in H. by apply bool_decide_eq_true in H.
Qed.

Lemma take_digits_sound s : forall d r, take_digits s = (d, r) -> s = digits d ++ r /\ (forall c r', r = c :: r' -> ~ is_digit c).
Proof.
  induction s as [|c s IH]; intros d r H; cbn in H; [injection H as <- <-; by split|].
  destruct (digit c) as [f|] eqn:Ed.
  - destruct (take_digits s) as [d' r'] eqn:E. injection H as <- <-. destruct (IH d' r' eq_refl) as [IH1 IH2].
    split; [|done]. rewrite IH1 at 1. clear IH IH1 IH2 E.
    destruct c as [[] [] [] [] [] [] [] []]; try discriminate Ed; by injection Ed as <-.
  - injection H as <- <-. split; [done|]. intros c' r' [= <- <-]. rewrite <-digit_is_digit, Ed. tauto.
Qed.

Lemma digits_digits d : Forall is_digit (digits d).
Proof. induction d; cbn; constructor; try done; apply (bool_decide_unpack _); by vm_compute. Qed.

Lemma digits_of (ds : text) : Forall is_digit ds -> exists d, digits d = ds.
Proof.
  induction 1 as [|c ds Hc _ [d <-]]; [by exists Decimal.Nil|].
  unfold is_digit in Hc. cbn in Hc.
  repeat (apply elem_of_cons in Hc as [->|Hc]; [first
    [by exists (Decimal.D0 d)|by exists (Decimal.D1 d)|by exists (Decimal.D2 d)|by exists (Decimal.D3 d)|by exists (Decimal.D4 d)
    |by exists (Decimal.D5 d)|by exists (Decimal.D6 d)|by exists (Decimal.D7 d)|by exists (Decimal.D8 d)|by exists (Decimal.D9 d)]|]).
  by apply elem_of_nil in Hc.
Qed.

Definition value_from (z : Z) (ds : text) : Z := fold_left (fun z c => 10 * z + (Z.of_N (N_of_ascii c) - 48))%Z ds z.

Lemma value_acc d : forall p, value_from (Z.pos p) (digits d) = Z.pos (Pos.of_uint_acc d p).
Proof.
  induction d; intros p; cbn [digits value_from fold_left Pos.of_uint_acc]; [done|..];
    rewrite <-IHd; unfold value_from; f_equal;
    match goal with |- context [Z.of_N (N_of_ascii ?c)] => let v := eval vm_compute in (Z.of_N (N_of_ascii c)) in change (Z.of_N (N_of_ascii c)) with v end; lia.
Qed.
Lemma value_digits d : value (digits d) = Z.of_N (N.of_uint d).
Proof.
  change (value (digits d)) with (value_from 0 (digits d)). unfold N.of_uint.
  induction d; [done|exact IHd|..]; cbn [digits value_from fold_left Pos.of_uint]; cbn [Z.of_N]; rewrite <-value_acc; done.
Qed.

Lemma skip_space_app sp r : Forall white sp -> (forall c r', r = c :: r' -> ~ white c) -> skip_space (sp ++ r) = r.
Proof.
  intros Hs Hr. induction Hs as [|c sp Hc _ IH]; cbn [app skip_space].
  - destruct r as [|c r]; [done|]. cbn [skip_space]. destruct (is_space c) eqn:E; [|done]. apply is_space_white in E. by destruct (Hr c r).
  - apply is_space_white in Hc. by rewrite Hc.
Qed.
Lemma skip_space_sound l : exists sp, Forall white sp /\ l = sp ++ skip_space l.
Proof.
  induction l as [|c l (sp&Hs&IH)]; [by exists []|]. cbn [skip_space]. destruct (is_space c) eqn:E; [|by exists []].
  exists (c :: sp). split; [constructor; [by apply is_space_white|done]|]. cbn. by f_equal.
Qed.

Lemma take_digits_complete d r : (forall c r', r = c :: r' -> ~ is_digit c) -> take_digits (digits d ++ r) = (d, r).
Proof.
  intros Hr. apply Failure.Proofs.take_digits_app. destruct r as [|c r]; [done|]. cbn. specialize (Hr c r eq_refl).
  destruct (digit c) eqn:E; [|done]. exfalso. apply Hr, digit_is_digit. by rewrite E.
Qed.

Definition outcome (z : Z) : res Z := if (-2147483648 <=? z)%Z && (z <=? 2147483647)%Z then Ok z else Throw OutOfRange.
Lemma outcome_fits z : fits z -> outcome z = Ok z.
Proof. unfold fits, outcome. intros H. rewrite (proj2 (Z.leb_le _ _)), (proj2 (Z.leb_le _ _)) by lia. done. Qed.
Lemma outcome_not z : ~ fits z -> outcome z = Throw OutOfRange.
Proof. unfold fits, outcome. intros H. destruct (Z.leb_spec (-2147483648) z), (Z.leb_spec z 2147483647); cbn [andb]; try done. lia. Qed.

Lemma to_int_digits neg d r : d <> Decimal.Nil -> (forall c r', r = c :: r' -> ~ is_digit c) ->
  to_int neg (digits d ++ r) = outcome (if neg then - value (digits d) else value (digits d))%Z.
Proof.
  intros Hd Hr. unfold to_int. rewrite take_digits_complete by done. rewrite value_digits. unfold outcome. by destruct d.
Qed.

Lemma stoi_number t z : number t z -> stoi t = outcome z.
Proof.
  destruct 1 as [sp sg ds rest Hsp Hsg Hne Hds Hr]. destruct (digits_of ds Hds) as [d <-].
  assert (d <> Decimal.Nil) as Hd by (by intros ->).
  unfold stoi. rewrite skip_space_app; [|done|].
  - assert (exists c r, digits d = c :: r) as (c&r&Ed) by (destruct (digits d) eqn:E; [done|eauto]).
    assert (is_digit c) as Hc by (rewrite Ed in Hds; by apply Forall_cons in Hds as [? _]).
    destruct (digit_not_space c Hc) as (_&Hm&Hp).
    apply elem_of_cons in Hsg as [->|Hsg]; [|apply elem_of_cons in Hsg as [->|Hsg]; [|apply elem_of_list_singleton in Hsg as ->]].
    + cbn [app]. rewrite decide_False by done. rewrite <-(to_int_digits false d rest) by done.
      rewrite Ed. cbn [app]. rewrite !decide_False by done. done.
    + change (⌜"+"⌝ ++ ?x) with ("+"%char :: x). cbn iota. rewrite decide_False by done. rewrite decide_True by done. rewrite decide_False by done.
      by apply (to_int_digits false).
    + change (⌜"-"⌝ ++ ?x) with ("-"%char :: x). cbn iota. rewrite decide_True by done. rewrite decide_True by done. by apply (to_int_digits true).
  - intros c r E. apply elem_of_cons in Hsg as [->|Hsg]; [|apply elem_of_cons in Hsg as [->|Hsg]; [|apply elem_of_list_singleton in Hsg as ->]].
    + destruct (digits d) as [|c' r'] eqn:Ed; [done|]. cbn in E. injection E as -> _. apply Forall_cons in Hds as [Hc _]. by apply digit_not_space in Hc as [? _].
    + injection E as <- _. apply (bool_decide_unpack _). by vm_compute.
    + injection E as <- _. apply (bool_decide_unpack _). by vm_compute.
Qed.

Lemma to_int_sound neg l : match to_int neg l with
  | Ok z => exists ds r, l = ds ++ r /\ ds <> [] /\ Forall is_digit ds /\ (forall c r', r = c :: r' -> ~ is_digit c) /\ z = (if neg then - value ds else value ds)%Z /\ fits z
  | Throw OutOfRange => exists ds r, l = ds ++ r /\ ds <> [] /\ Forall is_digit ds /\ (forall c r', r = c :: r' -> ~ is_digit c) /\ ~ fits (if neg then - value ds else value ds)%Z
  | Throw LogicError => forall c r, l = c :: r -> ~ is_digit c
  | _ => False end.
Proof.
  unfold to_int. destruct (take_digits l) as [d r] eqn:E. apply take_digits_sound in E as [-> Hr].
  assert (d <> Decimal.Nil -> digits d <> []) as Hne by (by destruct d). pose proof (digits_digits d) as Hds. pose proof (value_digits d) as Hv.
  destruct d; [done|..]; cbv zeta; rewrite <-Hv;
    change (if (-2147483648 <=? ?x)%Z && (?x <=? 2147483647)%Z then Ok ?x else Throw OutOfRange) with (outcome x);
    (match goal with |- context [outcome ?x] => destruct (decide (- 2 ^ 31 <= x < 2 ^ 31)%Z) as [Hf|Hf]; [rewrite (outcome_fits x) by done|rewrite (outcome_not x) by done] end);
    eexists _, _; (split; [reflexivity|]; split; [by apply Hne|]; done).
Qed.

Lemma stoi_sound t : match stoi t with
  | Ok z => number t z /\ fits z
  | Throw OutOfRange => exists z, number t z /\ ~ fits z
  | Throw LogicError => forall z, ~ number t z
  | _ => False end.
Proof.
  assert (forall z, stoi t <> outcome z -> ~ number t z) as Hno by (intros z H Hn; by apply H, stoi_number).
  assert (forall z, outcome z <> Throw LogicError) as Hne by (intros z; unfold outcome; by case_match).
  destruct (skip_space_sound t) as (sp&Hs&Et). remember (skip_space t) as l eqn:El.
  assert (forall neg sg r, stoi t = to_int neg r -> l = sg ++ r -> sg ∈ [[]; ⌜"+"⌝; ⌜"-"⌝] -> neg = bool_decide (sg = ⌜"-"⌝) ->
    match stoi t with
    | Ok z => number t z /\ fits z
    | Throw OutOfRange => exists z, number t z /\ ~ fits z
    | Throw LogicError => forall z, ~ number t z
    | _ => False end) as H.
  { intros neg sg r Est Esg Hsg ->. pose proof (to_int_sound (bool_decide (sg = ⌜"-"⌝)) r) as Hi. rewrite <-Est in Hi.
    destruct (stoi t) as [z|e| |] eqn:Es; [|destruct e|done|done]; try done.
    - destruct Hi as (ds&r'&->&Hd&Hds&Hr&->&Hf). split; [|done]. rewrite Et, Esg.
      pose proof (number_text sp sg ds r' Hs Hsg Hd Hds Hr) as Hn. by destruct (decide (sg = ⌜"-"⌝)); [rewrite bool_decide_eq_true_2 by done|rewrite bool_decide_eq_false_2 by done].
    - intros z. apply Hno. by intros E%eq_sym%Hne.
    - destruct Hi as (ds&r'&->&Hd&Hds&Hr&Hf). eexists. split; [|exact Hf]. rewrite Et, Esg.
      pose proof (number_text sp sg ds r' Hs Hsg Hd Hds Hr) as Hn. by destruct (decide (sg = ⌜"-"⌝)); [rewrite bool_decide_eq_true_2 by done|rewrite bool_decide_eq_false_2 by done]. }
  destruct l as [|c r].
  - assert (stoi t = Throw LogicError) as Es by (unfold stoi; by rewrite <-El). rewrite Es. intros z. apply Hno. rewrite Es. by intros E%eq_sym%Hne.
  - destruct (decide (c = "-"%char)) as [->|H1].
    + apply (H true ⌜"-"⌝ r); [unfold stoi; rewrite <-El; by rewrite decide_True|done|set_solver|done].
    + destruct (decide (c = "+"%char)) as [->|H2].
      * apply (H false ⌜"+"⌝ r); [unfold stoi; rewrite <-El; rewrite decide_False by done; by rewrite decide_True|done|set_solver|done].
      * apply (H false [] (c :: r)); [unfold stoi; rewrite <-El; by rewrite !decide_False by done|done|set_solver|done].
Qed.

Lemma number_fun t z z' : number t z -> number t z' -> fits z -> fits z' -> z = z'.
Proof. intros H H' F F'. apply stoi_number in H. apply stoi_number in H'. rewrite H in H'. rewrite !outcome_fits in H' by done. by injection H'. Qed.
Lemma stoi_ok t z : stoi t = Ok z <-> number t z /\ fits z.
Proof.
  split; [intros E; pose proof (stoi_sound t) as H; by rewrite E in H|]. intros [H F]. apply stoi_number in H. by rewrite H, outcome_fits.
Qed.
Lemma stoi_bad t e : stoi t = Throw e <-> bad_number t e.
Proof.
  split.
  - intros E. pose proof (stoi_sound t) as H. rewrite E in H. destruct e; try done; [by constructor|]. destruct H as (z&H&F). by econstructor.
  - destruct 1 as [t H|t z H F]; [|apply stoi_number in H; by rewrite H, outcome_not].
    pose proof (stoi_sound t) as Hs. destruct (stoi t) as [z|[]| |] eqn:E; try done; [by destruct (H z (proj1 Hs))|]. destruct Hs as (z&Hs&_). by destruct (H z Hs).
Qed.
Lemma stoi_total t : (exists z, stoi t = Ok z) \/ (exists e, stoi t = Throw e).
Proof. pose proof (stoi_sound t) as H. destruct (stoi t); [by left; eexists|by right; eexists|done|done]. Qed.

Lemma stoi_decimal (n : N) : (n < 2 ^ 31)%N -> stoi (Failure.Model.decimal n) = Ok (Z.of_N n).
Proof.
  intros Hn. apply stoi_ok. split; [|unfold fits; lia].
  pose proof (number_text [] [] (Failure.Model.decimal n) [] (Forall_nil_2 _)) as H. rewrite app_nil_r in H. cbn [app] in H.
  unfold Failure.Model.decimal in *. rewrite value_digits in H. rewrite Unsigned.of_to in H. apply H.
  - set_solver.
  - intros E. by apply (Failure.Proofs.to_uint_not_nil n); destruct (N.to_uint n).
  - apply digits_digits.
  - done.
Qed.
