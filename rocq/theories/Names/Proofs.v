(** Proofs about the tidying of names: termination and the removal of casts. *)
From Coq Require Import Ascii String.
From stdpp Require Import list relations.
From Verif.Base Require Import Outcome ListLemmas.
From Verif.Text Require Import Model Spec Proofs ProofsCase ProofsIndent.
From Verif.Names Require Import Model Spec.
Local Open Scope res_scope.
Local Notation "⌜ s ⌝" := (list_ascii_of_string s%string).
Local Notation length := List.length.

(** ** Termination *)

Lemma rbind_fuel {A B} (m : res A) (f : A -> res B) :
  m <> NoFuel -> (forall a, m = Ok a -> f a <> NoFuel) -> rbind m f <> NoFuel.
Proof. intros H1 H2. destruct m; cbn [rbind]; [by apply H2|done..]. Qed.

Lemma char_at_fuel l i : char_at l i <> NoFuel.
Proof. unfold char_at, rget. repeat case_decide; [destruct (l !! i)|..]; done. Qed.

Lemma cctype_fuel sc p c : cctype sc p c <> NoFuel.
Proof. unfold cctype. by case_match. Qed.

Lemma subst_all_ok l from to : from <> [] -> exists out, subst_all l from to = Ok out /\ replaced from to l out.
Proof. intros H. apply replace_all_ok; [done|lia]. Qed.

Lemma subst_all_fuel l from to : from <> [] -> subst_all l from to <> NoFuel.
Proof. intros H. destruct (subst_all_ok l from to H) as (out&->&_). done. Qed.

Lemma subst_double_ok l : subst_recursive l ⌜">>"⌝ ⌜"> >"⌝ = Ok (spread ">" " " l).
Proof.
  destruct (recursive_double (S (length l)) ">"%char " "%char l) as (out&E&->&_); [done|lia|]. exact E.
Qed.

Lemma subst_between_ok l lft from rgt to : exists out, subst_between l lft from rgt to = Ok out.
Proof. apply replace_if_ends. lia. Qed.

Lemma subst_between_fuel l lft from rgt to : subst_between l lft from rgt to <> NoFuel.
Proof. destruct (subst_between_ok l lft from rgt to) as (out&->). done. Qed.

Lemma splice_length l pos n to : pos <= length l ->
  length (splice l pos n to) = pos + length to + (length l - (pos + n)).
Proof. intros H. unfold splice. rewrite !app_length, take_length, drop_length. lia. Qed.

Lemma erase_length l pos n : pos <= length l -> length (erase l pos n) = pos + (length l - (pos + n)).
Proof. intros H. unfold erase. rewrite splice_length by done. simpl. lia. Qed.

Lemma matched_bounds l o c pos p e : find_matched_delimiters l o c pos = Some (p, e) ->
  pos <= p < length l /\ (e = p \/ p + 1 < e <= length l).
Proof.
  intros E. pose proof (matched_spec l o c pos) as H. rewrite E in H. destruct H as (H1&H2&_&H3).
  apply lookup_lt_Some in H2. split; [lia|]. destruct H3 as [[-> _]|[H3 _]]; [by left|by right].
Qed.

Lemma matched_beyond l o c pos : length l < pos -> find_matched_delimiters l o c pos = None.
Proof. intros H. unfold find_matched_delimiters. by rewrite find_from_beyond. Qed.

Lemma remove_enum_spec_fuel sc name : remove_enum_spec sc name <> NoFuel.
Proof.
  unfold remove_enum_spec.
  assert (forall fuel n pos, length n < fuel + pos -> 0 < fuel -> remove_enum_spec_loop sc fuel n pos <> NoFuel) as H.
  { induction fuel as [|fuel IH]; intros n pos Hf Hp; [lia|]. cbn [remove_enum_spec_loop].
    destruct (find_matched_delimiters n "(" ")" pos) as [[op cl]|] eqn:E; [|done].
    apply matched_bounds in E as [H1 H2]. case_decide as Hc; [|done].
    apply rbind_fuel; [apply char_at_fuel|]. intros c _. apply rbind_fuel; [apply cctype_fuel|].
    intros [] _; [|done]. destruct H2 as [->|H2]; [tauto|].
    destruct fuel as [|fuel]; [lia|]. apply IH; [|lia].
    rewrite erase_length by lia. lia. }
  apply H; lia.
Qed.

Lemma to_digit_fuel sc name pos : to_digit sc (S (length name)) name pos <> NoFuel.
Proof.
  assert (forall fuel pos, length name < fuel + pos -> 0 < fuel -> to_digit sc fuel name pos <> NoFuel) as H.
  { induction fuel as [|fuel IH]; intros p Hf Hp; [lia|]. cbn [to_digit]. case_decide; [|done].
    apply rbind_fuel; [apply char_at_fuel|]. intros c _. apply rbind_fuel; [apply cctype_fuel|].
    intros [] _; [done|]. apply IH; lia. }
  apply H; lia.
Qed.

Lemma past_digits_fuel sc name pos : past_digits sc (S (length name)) name pos <> NoFuel.
Proof.
  assert (forall fuel pos, length name < fuel + pos -> 0 < fuel -> past_digits sc fuel name pos <> NoFuel) as H.
  { induction fuel as [|fuel IH]; intros p Hf Hp; [lia|]. cbn [past_digits]. case_decide; [|done].
    apply rbind_fuel; [apply char_at_fuel|]. intros c _. apply rbind_fuel; [apply cctype_fuel|].
    intros [] _; [|done]. apply IH; lia. }
  apply H; lia.
Qed.

Lemma to_digit_range sc : forall fuel name pos p, to_digit sc fuel name pos = Ok p -> pos <= p.
Proof.
  induction fuel as [|fuel IH]; intros name pos p; [done|]. cbn [to_digit]. case_decide; [|by intros [= <-]].
  intros E. apply rbind_ok in E as (c&_&E). apply rbind_ok in E as ([]&_&E); [by injection E as <-|].
  apply IH in E. lia.
Qed.

Lemma past_digits_range sc : forall fuel name pos p, past_digits sc fuel name pos = Ok p ->
  pos <= p /\ (pos < length name -> p < length name).
Proof.
  induction fuel as [|fuel IH]; intros name pos p; [done|]. cbn [past_digits]. case_decide; [|by intros [= <-]].
  intros E. apply rbind_ok in E as (c&_&E). apply rbind_ok in E as ([]&_&E); [|injection E as <-; lia].
  apply IH in E. lia.
Qed.

Lemma find_any_Some cs l i : find_any cs l = Some i ->
  exists pre c post, l = pre ++ c :: post /\ length pre = i /\ c ∈ cs /\ Forall (fun x => x ∉ cs) pre.
Proof.
  revert i. induction l as [|x l IH]; intros i; cbn [find_any]; [done|]. case_decide as Hx.
  - intros [= <-]. exists [], x, l. done.
  - destruct (find_any cs l) as [j|]; [|done]. intros [= <-]. destruct (IH j eq_refl) as (pre&c&post&->&<-&Hc&Hf).
    exists (x :: pre), c, post. split; [done|]. split; [done|]. split; [done|]. by constructor.
Qed.

Lemma find_any_None cs l : find_any cs l = None <-> Forall (fun x => x ∉ cs) l.
Proof.
  induction l as [|x l IH]; cbn [find_any]; [done|]. case_decide as Hx.
  - split; [done|]. intros H. inversion H; subst. done.
  - rewrite Forall_cons. destruct (find_any cs l) as [j|]; [|tauto].
    split; [done|]. intros [_ H]. by apply IH in H.
Qed.

Lemma find_first_of_app l1 pre c post cs : c ∈ cs -> Forall (fun x => x ∉ cs) pre ->
  find_first_of (l1 ++ pre ++ c :: post) cs (length l1) = Some (length l1 + length pre).
Proof.
  intros Hc Hf. unfold find_first_of. rewrite decide_True by (rewrite app_length; lia). rewrite drop_app.
  assert (find_any cs (pre ++ c :: post) = Some (length pre)) as ->; [|done].
  induction Hf as [|x pre Hx Hf IH]; cbn [app find_any].
  - by rewrite decide_True.
  - rewrite decide_False by done. by rewrite IH.
Qed.

Lemma find_first_of_app_None l1 l2 cs : Forall (fun x => x ∉ cs) l2 -> find_first_of (l1 ++ l2) cs (length l1) = None.
Proof.
  intros Hf. unfold find_first_of. rewrite decide_True by (rewrite app_length; lia). rewrite drop_app.
  by rewrite (proj2 (find_any_None cs l2) Hf).
Qed.

Lemma find_first_of_range l cs pos p : find_first_of l cs pos = Some p -> pos <= p < length l.
Proof.
  unfold find_first_of. case_decide; [|done]. destruct (find_any cs (drop pos l)) as [i|] eqn:E; [|done].
  intros [= <-]. apply find_any_Some in E as (pre&c&post&E&<-&_).
  apply (f_equal length) in E. rewrite drop_length, app_length in E. simpl in E. lia.
Qed.

Lemma find_from_range l from pos p : find_from l from pos = Some p -> pos <= p /\ p + length from <= length l.
Proof.
  intros E. apply find_from_Some in E as (a&b&c&->&<-&->&_). rewrite !app_length. lia.
Qed.

Lemma rfind_Some l c pos p : rfind_char l c pos = Some p -> p <= pos /\ l !! p = Some c /\ forall i, p < i <= pos -> l !! i <> Some c.
Proof.
  induction pos as [|pos IH]; cbn [rfind_char]; case_decide as Hd.
  - intros [= <-]. split; [done|]. split; [done|]. lia.
  - done.
  - intros [= <-]. split; [done|]. split; [done|]. lia.
  - intros E. apply IH in E as (H1&H2&H3). split; [lia|]. split; [done|]. intros i Hi.
    destruct (decide (i = S pos)) as [->|]; [done|]. apply H3. lia.
Qed.

Lemma length_uncons ct : length (uncons ct) = S (length ct.2).
Proof. done. Qed.

(** The remaining length does not grow. *)
Lemma bits_range cv name p name1 p1 : p < length name -> bits cv name p = Ok (name1, p1) ->
  length name1 - p1 <= length name - p /\ (p1 < length name1 \/ p1 = length name1).
Proof.
  intros Hp. unfold bits. destruct (find_from name ["]"%char] p) as [close|] eqn:E1; [|intros [= <- <-]; lia].
  apply find_from_range in E1. simpl in E1.
  destruct (read_hex cv _) as [v|]; [|intros [= <- <-]; lia].
  destruct (rfind_char name "(" (p - 1)) as [op|] eqn:E2; [|intros [= <- <-]; lia].
  apply rfind_Some in E2 as (H1&H2&_). apply lookup_lt_Some in H2.
  intros E. apply rbind_ok in E as (c&_&E). repeat case_decide; try (injection E as <- <-; lia).
  all: injection E as <- <-; rewrite splice_length, erase_length by (rewrite ?erase_length; lia);
    rewrite length_uncons; lia.
Qed.

Lemma hexadecimal_range cv name p name1 p1 : hexadecimal cv name p = Ok (name1, p1) ->
  length name1 - p1 <= length name - p /\ (p < length name -> p1 < length name1).
Proof.
  unfold hexadecimal. intros E. apply rbind_ok in E as (c&Ec&E). case_decide; [|by injection E as <- <-].
  assert (p < length name) as Hp.
  { unfold char_at in Ec. repeat case_decide; [lia|lia|done]. }
  destruct (read_hex_float cv (drop p name)) as [dist str]. case_decide; [|by injection E as <- <-].
  injection E as <- <-. rewrite splice_length by lia. rewrite length_uncons. lia.
Qed.

Lemma drop_suffix_range sc name opened p name1 p1 : drop_suffix sc name opened p = Ok (name1, p1) ->
  length name1 - p1 <= length name - p /\ p <= p1.
Proof.
  unfold drop_suffix. case_decide; [|intros [= <- <-]; lia]. intros E. apply rbind_ok in E as (c&_&E).
  apply rbind_ok in E as ([]&_&E); [|injection E as <- <-; lia].
  destruct (find_first_of name ⌜",>"⌝ p) as [cl|] eqn:E1; [|injection E as <- <-; lia].
  apply find_first_of_range in E1. injection E as <- <-. rewrite erase_length by lia. lia.
Qed.

Lemma bits_fuel cv name p : bits cv name p <> NoFuel.
Proof.
  unfold bits. destruct (find_from _ _ _); [|done]. destruct (read_hex _ _); [|done]. destruct (rfind_char _ _ _); [|done].
  apply rbind_fuel; [apply char_at_fuel|]. intros c _. by repeat case_decide.
Qed.
Lemma hexadecimal_fuel cv name p : hexadecimal cv name p <> NoFuel.
Proof.
  unfold hexadecimal. apply rbind_fuel; [apply char_at_fuel|]. intros c _. case_decide; [|done].
  destruct (read_hex_float cv _). by case_decide.
Qed.
Lemma drop_suffix_fuel sc name o p : drop_suffix sc name o p <> NoFuel.
Proof.
  unfold drop_suffix. case_decide; [|done]. apply rbind_fuel; [apply char_at_fuel|]. intros c _.
  apply rbind_fuel; [apply cctype_fuel|]. intros [] _; [|done]. by case_match.
Qed.

Lemma process_literals_fuel sc cv name : process_literals sc cv name <> NoFuel.
Proof.
  unfold process_literals.
  assert (forall fuel n pos, length n - pos < fuel -> literals_loop sc cv fuel n pos <> NoFuel) as H; [|apply H; lia].
  induction fuel as [|fuel IH]; intros n pos Hf; [lia|]. cbn [literals_loop]. case_decide as Hp; [|done].
  destruct (find_first_of n ⌜"< "⌝ pos) as [op|] eqn:E; [|done]. apply find_first_of_range in E.
  apply rbind_fuel; [apply to_digit_fuel|]. intros p Ep. apply to_digit_range in Ep.
  case_decide as Hp2; [|apply IH; lia].
  apply rbind_fuel; [apply char_at_fuel|]. intros prev _. apply rbind_fuel; [case_decide; [done|apply cctype_fuel]|].
  intros [] _.
  - destruct (find_first_of n ⌜",>"⌝ p) as [p'|] eqn:E2; [|done]. apply find_first_of_range in E2. apply IH; lia.
  - apply rbind_fuel; [case_decide; [apply bits_fuel|done]|]. intros [name1 p1] E1.
    assert (length name1 - p1 <= length n - p) as H1.
    { case_decide; [apply bits_range in E1; lia|by injection E1 as <- <-]. }
    apply rbind_fuel; [apply hexadecimal_fuel|]. intros [name2 p2] E2. apply hexadecimal_range in E2 as [E2 _].
    apply rbind_fuel; [apply past_digits_fuel|]. intros p3 E3. apply past_digits_range in E3 as [E3 _].
    apply rbind_fuel; [apply drop_suffix_fuel|]. intros [name4 p4] E4. apply drop_suffix_range in E4.
    apply IH; lia.
Qed.

Lemma process_spans_fuel name : process_spans name <> NoFuel.
Proof.
  unfold process_spans. destruct (find_sandwiched_text _ _ _ _) as [[st [e|]]|]; [|by destruct (find_from _ _ _)|done].
  case_decide; [done|]. destruct (find_from _ _ _); [|done]. case_decide; [|done]. apply rbind_fuel; [apply char_at_fuel|]. intros c _. by repeat case_decide.
Qed.

Lemma parens_loop_fuel sc : forall fuel name op pos n, length name + 1 < fuel + pos -> 0 < fuel ->
  parens_loop sc fuel name op pos n <> NoFuel.
Proof.
  induction fuel as [|fuel IH]; intros name op pos n Hf H0; [lia|]. cbn [parens_loop].
  destruct (char_at name pos) as [c|e| |] eqn:Ec; [|done|done|by apply char_at_fuel in Ec].
  assert (pos <= length name) as Hpos. { unfold char_at in Ec. repeat case_decide; [lia|lia|done]. }
  cbn [rbind]. cbv zeta. destruct (decide ((if decide (c = "("%char) then S n
                      else if decide (c = ")"%char) then Nat.pred n else n) = 0)) as [Hz|Hz].
  - apply rbind_fuel.
    { clear Hz. case_decide; [|done]. apply rbind_fuel; [apply char_at_fuel|]. intros c0 _. apply rbind_fuel; [apply cctype_fuel|]. intros b _. by destruct b. }
    intros name' E. destruct (find_from name' ["("%char] (S pos)) as [p|] eqn:E2; [|done].
    apply find_from_range in E2 as [E2 E3]. simpl in E3.
    assert (length name' <= length name).
    { clear Hz. case_decide as Hd; [|by injection E as <-]. apply rbind_ok in E as (c'&_&E). apply rbind_ok in E as ([]&_&E); injection E as <-; [|done].
      destruct (decide (op <= length name)).
      - rewrite erase_length by done. lia.
      - unfold erase, splice. rewrite app_length, take_length. simpl. rewrite drop_length. lia. }
    apply IH; lia.
  - apply IH; lia.
Qed.

Lemma remove_casts_fuel sc name : remove_casts sc name <> NoFuel.
Proof. unfold remove_casts. case_match; [|done]. apply parens_loop_fuel; lia. Qed.

Lemma tidy_name_common_fuel sc lp64 name : tidy_name_common sc lp64 name <> NoFuel.
Proof.
  unfold tidy_name_common. apply rbind_fuel.
  { destruct lp64; [|done]. apply rbind_fuel; [by apply subst_all_fuel|]. intros n _. by apply subst_all_fuel. }
  intros n1 _. apply rbind_fuel; [apply subst_between_fuel|]. intros n2 _.
  apply rbind_fuel; [apply subst_between_fuel|]. intros n3 _.
  apply rbind_fuel; [apply remove_enum_spec_fuel|]. intros n4 _. apply remove_casts_fuel.
Qed.

Lemma subst_double_fuel l : subst_recursive l ⌜">>"⌝ ⌜"> >"⌝ <> NoFuel.
Proof. by rewrite subst_double_ok. Qed.

Ltac next_fuel :=
  match goal with
  | |- rbind _ _ <> NoFuel => apply rbind_fuel; [first [by apply subst_all_fuel|apply subst_between_fuel|apply subst_double_fuel
      |apply process_literals_fuel|apply process_spans_fuel]|]; let n := fresh "n" in intros n _
  end.

Lemma tidy_name_gcc_fuel sc lp64 cv name : tidy_name_gcc sc lp64 cv name <> NoFuel.
Proof. unfold tidy_name_gcc. repeat next_fuel. apply tidy_name_common_fuel. Qed.

Lemma tidy_name_clang_fuel sc lp64 cv name : tidy_name_clang sc lp64 cv name <> NoFuel.
Proof. unfold tidy_name_clang. repeat next_fuel. apply tidy_name_common_fuel. Qed.

Lemma sandwiched_bounds l lft rgt pos st e : find_sandwiched_text l lft rgt pos = Some (st, e) ->
  pos + length lft <= st <= length l /\ match e with Some e => st <= e /\ e + length rgt <= length l | None => True end.
Proof.
  unfold find_sandwiched_text. destruct (find_from l lft pos) as [s|] eqn:E; [|done]. intros [= <- <-].
  apply find_from_range in E. split; [lia|]. destruct (find_from l rgt _) as [e|] eqn:E2; [|done].
  apply find_from_range in E2. lia.
Qed.

Lemma array_iterators_ok name : exists out, process_array_iterators name = Ok out.
Proof.
  unfold process_array_iterators.
  assert (forall fuel n pos, length n - pos < fuel -> exists out, array_iterators_loop fuel n pos = Ok out) as H; [|apply H; lia].
  induction fuel as [|fuel IH]; intros n pos Hf; [lia|]. cbn [array_iterators_loop].
  destruct (find_sandwiched_text n array_opening array_closing pos) as [[st [e|]]|] eqn:E; [|eauto..].
  apply sandwiched_bounds in E as (H1&H2).
  change (length array_opening) with 27 in *. change (length array_closing) with 4 in *.
  change (length array_qualifiers) with 7.
  case_decide; [eauto|]. cbv zeta.
  assert (length (splice n (st - 27) (27 + (e - st) + 4) (take (e - st) (drop st n) ++ array_qualifiers)) =
          st - 27 + (e - st) + 7 + (length n - (e + 4))) as EL.
  { rewrite splice_length by lia. rewrite app_length, take_length, drop_length.
    change (length array_qualifiers) with 7. lia. }
  case_decide; apply IH; [rewrite erase_length by lia|]; rewrite EL; lia.
Qed.

Lemma tidy_name_msvc_ok i64 name : exists out, tidy_name_msvc i64 name = Ok out.
Proof.
  unfold tidy_name_msvc.
  assert (forall n, exists out, match i64 with Some t => subst_all n ⌜"__int64"⌝ t | None => Ok n end = Ok out) as Hi.
  { intros n. destruct i64 as [t|]; [|eauto]. destruct (subst_all_ok n ⌜"__int64"⌝ t) as (out&->&_); eauto. }
  repeat match goal with
  | |- exists out, rbind (subst_all ?n ?f ?t) _ = Ok out =>
      let o := fresh "o" in let E := fresh "E" in
      destruct (subst_all_ok n f t) as (o&E&_); [done|]; rewrite E; cbn [rbind]; clear E
  | |- exists out, rbind (subst_between ?n ?l ?f ?r ?t) _ = Ok out =>
      let o := fresh "o" in let E := fresh "E" in
      destruct (subst_between_ok n l f r t) as (o&E); rewrite E; cbn [rbind]; clear E
  | |- exists out, rbind (match i64 with _ => _ end) _ = Ok out =>
      let o := fresh "o" in let E := fresh "E" in
      match goal with |- exists out, rbind (match i64 with Some t => subst_all ?n _ _ | None => _ end) _ = Ok out =>
        destruct (Hi n) as (o&E); rewrite E; cbn [rbind]; clear E end
  end.
  apply array_iterators_ok.
Qed.
