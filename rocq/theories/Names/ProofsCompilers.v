(** The compilers agree. *)
From Coq Require Import Ascii String.
From stdpp Require Import list.
From Verif.Base Require Import Outcome Order ListLemmas.
From Verif.Text Require Import Model Spec Proofs ProofsCase.
From Verif.Names Require Import Model Spec SpecAgree Proofs ProofsLiterals ProofsAgree ProofsPasses.
Local Open Scope res_scope.
Local Notation "⌜ s ⌝" := (list_ascii_of_string s%string).
Local Notation length := List.length.

(** ** Characters *)
Definition mid_word (i : item) : text :=
  match i with Id _ n => n | Num d _ => d | Tru b => if b then ⌜"true"⌝ else ⌜"false"⌝ end.
Definition mid1_word (i : item) : text :=
  match i with Id _ n => n | Num d _ => d | Tru b => if b then ⌜"1"⌝ else ⌜"false"⌝ end.

Definition word_char (c : char) : Prop := name_char c \/ a_digit c.

Lemma code_cases c : word_char c ->
  (48 <= nat_of_ascii c <= 57) \/ (65 <= nat_of_ascii c <= 90) \/ (97 <= nat_of_ascii c <= 122) \/ nat_of_ascii c = 95 \/ nat_of_ascii c = 58.
Proof.
  intros [[[H|H]|[->| ->]]|H]; [right; right; left; exact H|right; left; exact H|vm_compute; lia|vm_compute; lia|].
  left. unfold a_digit in H. cbn in H. repeat (apply elem_of_cons in H as [-> | H]; [vm_compute; lia|]). by apply elem_of_nil in H.
Qed.

Lemma word_char_ascii7 c : word_char c -> ascii7 c.
Proof. intros H. apply code_cases in H. unfold ascii7. lia. Qed.
Lemma word_char_not c d : word_char c -> nat_of_ascii d < 48 \/ nat_of_ascii d = 60 \/ nat_of_ascii d = 62 \/ nat_of_ascii d = 96 -> c <> d.
Proof. intros H Hd ->. apply code_cases in H. lia. Qed.
Lemma name_not_digit c : name_char c -> ~ a_digit c.
Proof.
  intros H Hd. assert (48 <= nat_of_ascii c <= 57).
  { unfold a_digit in Hd. cbn in Hd. repeat (apply elem_of_cons in Hd as [-> | Hd]; [vm_compute; lia|]). by apply elem_of_nil in Hd. }
  destruct H as [[H|H]|[->| ->]]; [unfold is_lower in H; lia|unfold is_upper in H; lia|vm_compute in H0; lia|vm_compute in H0; lia].
Qed.
Lemma letter_name c : a_letter c -> name_char c.
Proof. by left. Qed.

Lemma Forall_truth b : Forall name_char (if b : bool then ⌜"true"⌝ else ⌜"false"⌝).
Proof. destruct b; repeat (apply Forall_cons_2; [left; left; vm_compute; lia|]); constructor. Qed.
Lemma Forall_bit b : Forall a_digit (if b : bool then ⌜"1"⌝ else ⌜"0"⌝).
Proof. destruct b; apply (bool_decide_unpack _); by vm_compute. Qed.
Lemma names_words l : Forall name_char l -> Forall word_char l.
Proof. intros H. eapply Forall_impl; [exact H|]. by left. Qed.
Lemma digits_words l : Forall a_digit l -> Forall word_char l.
Proof. intros H. eapply Forall_impl; [exact H|]. by right. Qed.
Lemma letters_words l : Forall a_letter l -> Forall word_char l.
Proof. intros H. eapply Forall_impl; [exact H|]. intros c Hc. left. by left. Qed.

Lemma words_words w : w = gcc_word \/ w = mid_word \/ w = mid1_word \/ w = common_word -> forall i, item_ok i -> Forall word_char (w i) /\ w i <> [].
Proof.
  intros Hw i Hi. assert (forall n, name_ok n -> Forall word_char n /\ n <> []) as HN.
  { intros n (H1&H2&_). split; [by apply names_words|done]. }
  assert (forall b : bool, Forall word_char (if b then ⌜"true"⌝ else ⌜"false"⌝)) as HT by (intros b; apply names_words, Forall_truth).
  assert (forall b : bool, Forall word_char (if b then ⌜"1"⌝ else ⌜"0"⌝)) as HB by (intros b; apply digits_words, Forall_bit).
  destruct i as [k n|d s|b]; cbn [item_ok] in Hi.
  - destruct_or! Hw; subst w; cbn; by apply HN.
  - destruct Hi as (H1&H2&H3&_). destruct_or! Hw; subst w; cbn; try (split; [by apply digits_words|done]).
    split; [|by destruct d]. apply Forall_app. split; [by apply digits_words|by apply letters_words].
  - destruct_or! Hw; subst w; cbn [gcc_word mid_word mid1_word common_word].
    + split; [apply HT|by destruct b].
    + split; [apply HT|by destruct b].
    + destruct b; [split; [apply (HB true)|done]|split; [apply (HT false)|done]].
    + split; [apply HB|by destruct b].
Qed.

Lemma word_free_char l d : Forall word_char l -> nat_of_ascii d < 48 \/ nat_of_ascii d = 60 \/ nat_of_ascii d = 62 \/ nat_of_ascii d = 96 -> d ∉ l.
Proof. intros H Hd Hin. apply (proj1 (Forall_forall _ _) H) in Hin. by apply (word_char_not d d) in Hin. Qed.

Lemma items_at (P : item -> Prop) (l : list (sep * item)) : Forall P (map snd l) -> Forall (fun si => P si.2) l.
Proof. by rewrite Forall_map. Qed.

Lemma occurs_part a q b l : occurs (a ++ q ++ b) l -> occurs q l.
Proof. intros (i&pre&post&->&_). exists (length (pre ++ a)). exists (pre ++ a), (b ++ post). by rewrite <-!app_assoc. Qed.

(** ** Patterns with an underscore or a colon *)
Lemma special_free q c w : q ∈ treated -> c ∈ q -> c = underscore \/ c = ":"%char ->
  w = gcc_word \/ w = mid_word \/ w = mid1_word \/ w = common_word -> forall i, item_ok i -> ~ occurs q (w i).
Proof.
  intros Hq Hc Hs Hw i Hi.
  assert (forall n, name_ok n -> ~ occurs q n) as HN by (intros n (_&_&H); by apply (proj1 (Forall_forall _ _) H)).
  assert (forall l, Forall (fun x => a_letter x \/ a_digit x) l -> ~ occurs q l) as HA.
  { intros l Hl. apply (not_occurs_char q l c Hc). intros Hin. apply (proj1 (Forall_forall _ _) Hl) in Hin.
    destruct Hs as [-> | ->]; destruct Hin as [[H|H]|H]; try (vm_compute in H; lia); revert H; apply (bool_decide_unpack _); by vm_compute. }
  assert (forall l, Forall a_digit l -> Forall (fun x => a_letter x \/ a_digit x) l) as HD by (intros l H; eapply Forall_impl; [exact H|by right]).
  assert (forall b : bool, Forall (fun x => a_letter x \/ a_digit x) (if b then ⌜"true"⌝ else ⌜"false"⌝)) as HT.
  { intros []; repeat (apply Forall_cons_2; [left; left; vm_compute; lia|]); constructor. }
  destruct i as [k n|d s|b]; cbn [item_ok] in Hi.
  - destruct_or! Hw; subst w; cbn; by apply HN.
  - destruct Hi as (H1&H2&H3&_). destruct_or! Hw; subst w; cbn; try (by apply HA, HD).
    apply HA. apply Forall_app. split; [by apply HD|]. eapply Forall_impl; [exact H3|by left].
  - destruct_or! Hw; subst w; cbn [gcc_word mid_word mid1_word common_word]; try (by apply HA, HT); try (apply HA, HD, Forall_bit).
    destruct b; [apply HA, HD, (Forall_bit true)|apply HA, (HT false)].
Qed.

Lemma text_special p q a b c n w cl comma l t : p = a ++ q ++ b -> q ∈ treated -> c ∈ q -> c = underscore \/ c = ":"%char ->
  Forall (fun c => c ∉ delims) q -> cl_ok cl -> comma_ok comma ->
  w = gcc_word \/ w = mid_word \/ w = mid1_word \/ w = common_word -> name_ok n -> Forall item_ok (map snd l) ->
  ~ occurs p (n ++ rest_text w cl comma l t).
Proof.
  intros -> Hq Hc Hs Hd Hcl Hcomma Hw Hn Hl Ho. apply occurs_part in Ho. revert Ho.
  apply text_free; [done|done|intros ->; by apply elem_of_nil in Hc|done| |].
  - destruct Hn as (_&_&H). by apply (proj1 (Forall_forall _ _) H).
  - eapply Forall_impl; [apply items_at; exact Hl|]. intros [sp i]; cbn [snd]; intros Hi. by eapply special_free.
Qed.

Lemma text_long n w cl comma l t : cl_ok cl -> comma_ok comma -> w = mid_word -> name_ok n -> Forall item_ok (map snd l) ->
  ~ occurs ⌜"long"⌝ (n ++ rest_text w cl comma l t).
Proof.
  intros Hcl Hcomma -> Hn Hl.
  assert (forall n, name_ok n -> ~ occurs ⌜"long"⌝ n) as HN.
  { intros n' (_&_&H). apply (proj1 (Forall_forall _ _) H). apply (bool_decide_unpack _). by vm_compute. }
  apply text_free; [done|done|done|apply (bool_decide_unpack _); by vm_compute|by apply HN|].
  eapply Forall_impl; [apply items_at; exact Hl|]. intros [sp i]; cbn [snd]; intros Hi. destruct i as [k m|d s|b]; cbn [mid_word item_ok] in *; [by apply HN| |].
  - destruct Hi as (_&Hd&_). apply (not_occurs_char _ _ "l"%char); [apply (bool_decide_unpack _); by vm_compute|].
    intros Hin. apply (proj1 (Forall_forall _ _) Hd) in Hin. revert Hin. apply (bool_decide_unpack _). by vm_compute.
  - apply find_first_None. by destruct b.
Qed.

(** ** Numbers *)
Fixpoint lits (acc : text) (l : list (sep * item)) (t : nat) : list literal * text :=
  match l with
  | [] => ([], acc ++ spaced t)
  | (s, j) :: l' =>
      let acc' := acc ++ sep_text spaced ⌜", "⌝ s in
      match j with
      | Num d sf => let r := lits [] l' t in (Literal acc' d sf :: r.1, r.2)
      | _ => lits (acc' ++ gcc_word j) l' t
      end
  end.

Lemma lits_text l : forall acc t,
  with_suffixes (lits acc l t).1 (lits acc l t).2 = acc ++ rest_text gcc_word spaced ⌜", "⌝ l t /\
  without_suffixes (lits acc l t).1 (lits acc l t).2 = acc ++ rest_text mid_word spaced ⌜", "⌝ l t.
Proof.
  induction l as [|[s j] l IH]; intros acc t; [done|]. cbn [lits]. cbv zeta.
  assert (forall w x, acc ++ rest_text w spaced ⌜", "⌝ ((s, x) :: l) t =
    ((acc ++ sep_text spaced ⌜", "⌝ s) ++ w x) ++ rest_text w spaced ⌜", "⌝ l t) as E.
  { intros w x. unfold rest_text. cbn [map concat fst snd]. by rewrite <-!app_assoc. }
  rewrite !E. destruct j as [k n|d sf|b]; [apply IH| |apply IH].
  destruct (IH [] t) as [E1 E2]. unfold with_suffixes, without_suffixes in *. cbn [fst snd map concat before digits suffix].
  cbn [app] in E1, E2. rewrite <-!(app_assoc _ (concat _)), E1, E2. cbn [gcc_word mid_word]. by rewrite <-!app_assoc.
Qed.

Definition text_char (c : char) : Prop := ascii7 c /\ ~ a_digit c.
Lemma sep_chars s : Forall text_char (sep_text spaced ⌜", "⌝ s).
Proof.
  eapply Forall_impl; [apply (sep_delims spaced spaced_ok ⌜", "⌝); by right|]. intros c Hc. unfold delims in Hc. cbn in Hc.
  repeat (apply elem_of_cons in Hc as [-> | Hc]; [split; [vm_compute; lia|apply (bool_decide_unpack _); by vm_compute]|]). by apply elem_of_nil in Hc.
Qed.
Lemma cl_chars k : Forall text_char (spaced k).
Proof. pose proof (sep_chars (Closing k)) as H. cbn [sep_text] in H. rewrite Forall_app in H. tauto. Qed.
Lemma names_chars l : Forall name_char l -> Forall text_char l.
Proof. intros H. eapply Forall_impl; [exact H|]. intros c Hc. split; [apply word_char_ascii7; by left|by apply name_not_digit]. Qed.

Lemma letter_plain c : a_letter c -> ascii7 c /\ ~ closing c.
Proof.
  intros H. split; [apply word_char_ascii7; left; by left|]. intros [->| ->]; destruct H as [H|H]; vm_compute in H; lia.
Qed.

Lemma lits_literals l : forall acc t, Forall text_char acc -> Forall item_ok (map snd l) ->
  Forall literal_ok (lits acc l t).1 /\ Forall (fun x => opens (before x)) (lits acc l t).1 /\ Forall text_char (lits acc l t).2.
Proof.
  induction l as [|[s j] l IH]; intros acc t Hacc Hl.
  - cbn. split; [done|]. split; [done|]. apply Forall_app. split; [done|apply cl_chars].
  - cbn [map snd] in Hl. rewrite Forall_cons in Hl. destruct Hl as [Hj Hl]. cbn [lits]. cbv zeta.
    assert (Forall text_char (acc ++ sep_text spaced ⌜", "⌝ s)) as Hacc' by (apply Forall_app; split; [done|apply sep_chars]).
    destruct j as [k n|d sf|b]; cbn [gcc_word item_ok] in *.
    + apply IH; [|done]. apply Forall_app. split; [done|]. apply names_chars. by destruct Hj as (_&H&_).
    + destruct (IH [] t) as (H1&H2&H3); [done|done|]. cbn [fst snd]. destruct Hj as (Hd1&Hd2&Hs1&Hs2).
      split; [|split; [|done]]; (apply Forall_cons_2; [|done]).
      * split; [done|]. split; [|split; [done|split]].
        -- destruct s as [|k]; cbn [before sep_text].
           ++ exists acc, "<"%char. split; [done|]. split; [|done]. intros [H|H]; vm_compute in H; lia.
           ++ exists (acc ++ spaced k ++ [","%char]), " "%char. split; [by rewrite <-!app_assoc|]. split; [|done]. intros [H|H]; vm_compute in H; lia.
        -- eapply Forall_impl; [exact Hs1|apply letter_plain].
        -- cbn [suffix]. destruct sf as [|x sf]; [done|]. rewrite Forall_cons in Hs1. split; [tauto|]. intros ->. done.
      * cbn [before]. destruct s as [|k]; cbn [sep_text].
        -- left. rewrite elem_of_app. right. by left.
        -- right. rewrite !elem_of_app. right. right. right. by left.
    + apply IH; [|done]. apply Forall_app. split; [done|]. apply names_chars, Forall_truth.
Qed.

Definition continues (acc : text) : Prop := follows acc /\ opens (List.tail acc).
Lemma continues_app acc l : continues acc -> continues (acc ++ l).
Proof.
  intros [(c&l'&->&Hc) Ho]. split; [by exists c, (l' ++ l)|]. cbn in *. destruct Ho as [Ho|Ho]; [left|right]; apply elem_of_app; by left.
Qed.
Lemma continues_sep k : continues (sep_text spaced ⌜", "⌝ (Closing k)).
Proof.
  cbn [sep_text]. destruct k as [|k].
  - split; [by exists ","%char, ⌜" "⌝; split; [|left]|]. right. by left.
  - assert (exists r, spaced (S k) = ">"%char :: r) as [r ->] by (destruct k; eexists; reflexivity).
    split; [eexists _, _; split; [reflexivity|by right]|]. right. cbn [List.tail app]. rewrite !elem_of_app. right. right. by left.
Qed.

Lemma lits_continue l : forall t,
  (forall i, ~ is_id i -> flat_ok i l t -> Forall (fun x => continues (before x)) (lits [] l t).1 /\ follows (lits [] l t).2) /\
  (forall acc i, continues acc -> flat_ok i l t -> Forall (fun x => continues (before x)) (lits acc l t).1 /\ follows (lits acc l t).2).
Proof.
  induction l as [|[s j] l IH]; intros t.
  - split.
    + intros i Hi [H|H]; [done|]. cbn. split; [done|]. destruct t as [|t]; [lia|].
      assert (exists r, spaced (S t) = ">"%char :: r) as [r ->] by (destruct t; eexists; reflexivity).
      eexists _, _. split; [reflexivity|by right].
    + intros acc i Hacc _. cbn. split; [done|]. by destruct (continues_app acc (spaced t) Hacc).
  - destruct (IH t) as [IHA IHB]. split.
    + intros i Hi [H1 H2]. destruct s as [|k]; [by destruct Hi; apply H1|]. cbn [lits]. cbv zeta. cbn [app].
      pose proof (continues_sep k) as Hk. destruct j as [k' n|d sf|b].
      * eapply IHB; [by apply continues_app|exact H2].
      * destruct (IHA (Num d sf)) as [H3 H4]; [by intros []|done|]. cbn [fst snd]. split; [|done]. by apply Forall_cons_2.
      * eapply IHB; [by apply continues_app|exact H2].
    + intros acc i Hacc [H1 H2]. cbn [lits]. cbv zeta. pose proof (continues_app acc (sep_text spaced ⌜", "⌝ s) Hacc) as Hk. destruct j as [k' n|d sf|b].
      * eapply IHB; [by apply continues_app|exact H2].
      * destruct (IHA (Num d sf)) as [H3 H4]; [by intros []|done|]. cbn [fst snd]. split; [|done]. by apply Forall_cons_2.
      * eapply IHB; [by apply continues_app|exact H2].
Qed.

Lemma lits_later l : forall acc i t, flat_ok i l t ->
  (forall x xs, (lits acc l t).1 = x :: xs -> Forall (fun x => continues (before x)) xs) /\ ((lits acc l t).1 <> [] -> follows (lits acc l t).2).
Proof.
  induction l as [|[s j] l IH]; intros acc i t Hok; [by split|]. destruct Hok as [_ Hok]. cbn [lits]. cbv zeta.
  destruct j as [k' n|d sf|b]; [by eapply IH| |by eapply IH].
  destruct (proj1 (lits_continue l t) (Num d sf)) as [H3 H4]; [by intros []|done|]. cbn [fst snd].
  split; [|done]. by intros x xs [= _ <-].
Qed.

Lemma literals_flat sc cv n i l t : name_ok n -> Forall item_ok (map snd l) -> flat_ok i l t ->
  process_literals sc cv (n ++ rest_text gcc_word spaced ⌜", "⌝ l t) = Ok (n ++ rest_text mid_word spaced ⌜", "⌝ l t).
Proof.
  intros Hn Hl Hok. destruct (lits_text l n t) as [<- <-]. apply process_literals_spec.
  destruct (lits_literals l n t) as (H1&H2&H3); [by apply names_chars; destruct Hn as (_&H&_)|done|].
  destruct (lits_later l n i t Hok) as [H4 H5].
  split; [done|]. split; [|split; [done|split; [done|done]]].
  intros x xs E. rewrite E in H2. by inversion H2.
Qed.

(** ** Truth values *)
Lemma starts_not from rest : starts rest -> Forall (fun c => c ∉ ⌜"<>,"⌝) from -> forall d, head rest = Some d -> d ∉ from.
Proof. intros H Hf d Hd Hin. apply (proj1 (Forall_forall _ _) Hf) in Hin. by apply Hin, H. Qed.

Lemma digits_skips c f d rest : Forall a_digit d -> ~ a_digit c -> skips (c :: f) d rest.
Proof. intros H Hc. apply skips_first. intros Hin. by apply (proj1 (Forall_forall _ _) H) in Hin. Qed.

Lemma truth_pass (b0 : bool) c f to w w' n i l t :
  (c :: f) = (if b0 then ⌜"true"⌝ else ⌜"false"⌝) -> to = (if b0 then ⌜"1"⌝ else ⌜"0"⌝) ->
  w = (if b0 then mid_word else mid1_word) -> w' = (if b0 then mid1_word else common_word) ->
  name_ok n -> Forall item_ok (map snd l) -> flat_ok i l t ->
  subst_between (n ++ rest_text w spaced ⌜", "⌝ l t) ⌜" <"⌝ (c :: f) ⌜",>"⌝ to = Ok (n ++ rest_text w' spaced ⌜", "⌝ l t).
Proof.
  intros Ef Eto Ew Ew' Hn Hl Hok.
  assert (c ∉ delims /\ c ∉ f /\ ~ a_digit c /\ (c :: f) ∈ treated /\ Forall (fun c => c ∉ ⌜"<>,"⌝) (c :: f)) as (Hc1&Hc2&Hc3&Hc4&Hc5).
  { destruct b0; injection Ef as -> ->; repeat split; apply (bool_decide_unpack _); by vm_compute. }
  assert (forall n rest, name_ok n -> starts rest -> skips (c :: f) n rest) as HN.
  { intros n' rest (_&_&H) Hr. apply skips_word; [by apply (proj1 (Forall_forall _ _) H)|by apply starts_not]. }
  assert (forall j rest, item_ok j -> starts rest -> closed j rest -> (skips (c :: f) (w j) rest /\ w' j = w j) \/
    (w j = c :: f /\ w' j = to)) as HJ.
  { intros j rest Hj Hr Hcl. destruct j as [k m|d s|b]; cbn [item_ok] in Hj.
    - left. destruct b0; subst w w'; cbn; (split; [by apply HN|done]).
    - left. destruct Hj as (_&Hd&_). destruct b0; subst w w'; cbn; (split; [by apply digits_skips|done]).
    - destruct b0, b; subst w w' to; cbn [mid_word mid1_word common_word]; injection Ef as -> ->.
      + by right.
      + left. split; [|done]. apply skips_clash. by vm_compute.
      + left. split; [|done]. apply skips_clash. by vm_compute.
      + by right. }
  apply (subst_between_flat spaced ⌜", "⌝ c f ⌜" <"⌝ ⌜",>"⌝ to n w w' i l t spaced_ok (or_intror eq_refl) Hc1 Hc2); [| | |done].
  - apply HN; [done|]. apply starts_rest; [apply spaced_ok|by right].
  - intros j prev rest out Hj Hp Hr Hcl HR.
    destruct (HJ j rest) as [[Hs ->]|[Ej ->]]; [by apply (proj1 (Forall_forall _ _) Hl)|done|done|by apply rif_word|].
    rewrite Ej in HR |- *. pose proof (rif_hit (any_of ⌜" <"⌝) (any_of ⌜",>"⌝) c f to [] prev rest out) as Hhit. rewrite !app_nil_r in Hhit.
    apply Hhit; clear Hhit; [| |by intros ? Hi; cbn in Hi; lia|done].
    + destruct Hp as [->|[= <-]]; done.
    + destruct Hcl as [Hid|(d&r&->&Hd)].
      * exfalso. destruct j as [k m|d s|b]; [|done|done]. pose proof (proj1 (Forall_forall _ _) Hl _ Hj) as (_&_&H).
        apply (proj1 (Forall_forall _ _) H _ Hc4). assert (m = c :: f) as -> by (by destruct b0; subst w). exists 0. exists [], []. by rewrite app_nil_r.
      * cbn. destruct Hd as [->| ->]; done.
  - intros j rest Hj Hr HL. destruct (decide (w j = c :: f)) as [Ej|Hne].
    + rewrite Ej. pose proof (lone_hit c f Hc2 [] rest) as Hhit. rewrite app_nil_r in Hhit. apply Hhit; clear Hhit; [|by intros ? Hi; cbn in Hi; lia|done].
      cbn [app]. intros Ho. apply (occurs_at_lookup _ _ _ 0 c) in Ho; [|done]. destruct rest as [|d rest]; [done|]. cbn in Ho. injection Ho as ->.
      rewrite Forall_cons in Hc5. destruct Hc5 as [Hc5 _]. apply Hc5. by apply Hr.
    + apply lone_word; [|done]. pose proof (proj1 (Forall_forall _ _) Hl _ Hj) as Hok'.
      destruct j as [k m|d s|b].
      * destruct b0; subst w; by apply HN.
      * destruct Hok' as (_&Hd&_). destruct b0; subst w; by apply digits_skips.
      * destruct b0, b; subst w; cbn [mid_word mid1_word] in *; injection Ef as -> ->; try done; apply skips_clash; by vm_compute.
Qed.

(** ** gcc and clang *)
Lemma no_parens sc l : "("%char ∉ l -> remove_enum_spec sc l = Ok l /\ remove_casts sc l = Ok l.
Proof.
  intros H. assert (find_from l ["("%char] 0 = None) as E.
  { apply (find_from_app_None ["("%char] [] l). intros Ho. by apply occurs_char in Ho. }
  unfold remove_enum_spec, remove_casts. cbn [remove_enum_spec_loop]. unfold find_matched_delimiters. by rewrite E.
Qed.

Lemma in_treated k p : treated !! k = Some p -> p ∈ treated.
Proof. apply elem_of_list_lookup_2. Qed.

Lemma common_flat sc lp64 n i l t : name_ok n -> Forall item_ok (map snd l) -> flat_ok i l t ->
  tidy_name_common sc lp64 (n ++ rest_text mid_word spaced ⌜", "⌝ l t) = Ok (n ++ rest_text common_word spaced ⌜", "⌝ l t).
Proof.
  intros Hn Hl Hok. unfold tidy_name_common.
  assert (~ occurs ⌜"long"⌝ (n ++ rest_text mid_word spaced ⌜", "⌝ l t)) as HL.
  { apply text_long; [apply spaced_ok|by right|done|done|done]. }
  assert ((if lp64 then let? name := subst_all (n ++ rest_text mid_word spaced ⌜", "⌝ l t) ⌜"long long"⌝ ⌜"long"⌝ in subst_all name ⌜"long"⌝ ⌜"long long"⌝
           else Ok (n ++ rest_text mid_word spaced ⌜", "⌝ l t)) = Ok (n ++ rest_text mid_word spaced ⌜", "⌝ l t)) as ->.
  { destruct lp64; [|done]. rewrite subst_all_free; [cbn [rbind]; by apply subst_all_free|done|].
    intros Ho. apply HL. by apply (occurs_part [] ⌜"long"⌝ ⌜" long"⌝). }
  cbn [rbind].
  pose proof (truth_pass true "t" ⌜"rue"⌝ ⌜"1"⌝ mid_word mid1_word n i l t eq_refl eq_refl eq_refl eq_refl Hn Hl Hok) as Et.
  change ("t"%char :: ⌜"rue"⌝) with ⌜"true"⌝ in Et. rewrite Et. cbn [rbind].
  pose proof (truth_pass false "f" ⌜"alse"⌝ ⌜"0"⌝ mid1_word common_word n i l t eq_refl eq_refl eq_refl eq_refl Hn Hl Hok) as Ef.
  change ("f"%char :: ⌜"alse"⌝) with ⌜"false"⌝ in Ef. rewrite Ef. cbn [rbind].
  destruct (no_parens sc (n ++ rest_text common_word spaced ⌜", "⌝ l t)) as [-> E].
  - apply text_chars; [apply spaced_ok|by right|apply (bool_decide_unpack _); by vm_compute| |].
    + apply word_free_char; [by apply names_words; destruct Hn as (_&H&_)|vm_compute; lia].
    + eapply Forall_impl; [apply items_at; exact Hl|]. intros [sp j]; cbn [snd]; intros Hj. apply word_free_char; [|vm_compute; lia].
      apply words_words; [tauto|done].
  - cbn [rbind]. exact E.
Qed.

Lemma spans_free l : ~ occurs ⌜"::span<"⌝ l -> process_spans l = Ok l.
Proof.
  intros H. unfold process_spans, find_sandwiched_text. pose proof (find_from_app_None ⌜"::span<"⌝ [] l H) as E.
  cbn [app length] in E. by rewrite E.
Qed.

Lemma after_namespaces sc lp64 cv n i l t : name_ok n -> Forall item_ok (map snd l) -> flat_ok i l t ->
  (let? name := subst_recursive (n ++ rest_text gcc_word tight ⌜", "⌝ l t) ⌜">>"⌝ ⌜"> >"⌝ in
   let? name := process_literals sc cv name in
   let? name := process_spans name in
   tidy_name_common sc lp64 name) = Ok (n ++ rest_text common_word spaced ⌜", "⌝ l t).
Proof.
  intros Hn Hl Hok. rewrite subst_double_ok. cbn [rbind].
  rewrite spread_word by (apply word_free_char; [by apply names_words; destruct Hn as (_&H&_)|vm_compute; lia]).
  rewrite spread_rest.
  2: { eapply Forall_impl; [apply items_at; exact Hl|]. intros [sp j]; cbn [snd]; intros Hj. destruct (words_words gcc_word) with (i := j) as [H1 H2]; [tauto|done|].
       split; [|done]. apply word_free_char; [done|vm_compute; lia]. }
  rewrite (literals_flat sc cv n i l t) by done. cbn [rbind].
  rewrite spans_free; [cbn [rbind]; by eapply common_flat|].
  apply (text_special _ ⌜"::span"⌝ [] ⌜"<"⌝ ":"%char); try done; try tauto; try (apply (bool_decide_unpack _); by vm_compute).
  apply spaced_ok.
Qed.

Lemma gcc_flat sc lp64 cv n i l t : name_ok n -> Forall item_ok (map snd l) -> flat_ok i l t ->
  tidy_name_gcc sc lp64 cv (n ++ rest_text gcc_word tight ⌜", "⌝ l t) = Ok (n ++ rest_text common_word spaced ⌜", "⌝ l t) /\
  tidy_name_clang sc lp64 cv (n ++ rest_text gcc_word tight ⌜", "⌝ l t) = Ok (n ++ rest_text common_word spaced ⌜", "⌝ l t).
Proof.
  intros Hn Hl Hok.
  assert (forall p q a b, p = a ++ q ++ b -> q = ⌜"__"⌝ \/ q = ⌜"_V"⌝ -> ~ occurs p (n ++ rest_text gcc_word tight ⌜", "⌝ l t)) as HF.
  { intros p q a b E Hq. apply (text_special p q a b underscore); try done; try tauto.
    - destruct Hq as [->| ->]; apply (bool_decide_unpack _); by vm_compute.
    - destruct Hq as [->| ->]; apply (bool_decide_unpack _); by vm_compute.
    - destruct Hq as [->| ->]; apply (bool_decide_unpack _); by vm_compute.
    - apply tight_ok.
    - by right. }
  unfold tidy_name_gcc, tidy_name_clang. split.
  - rewrite subst_all_free; [|done|apply (HF _ ⌜"__"⌝ [] ⌜"cxx11::"⌝); [done|by left]]. cbn [rbind].
    rewrite subst_all_free; [|done|apply (HF _ ⌜"_V"⌝ [] ⌜"2::"⌝); [done|by right]]. cbn [rbind].
    by eapply after_namespaces.
  - rewrite subst_all_free; [|done|apply (HF _ ⌜"__"⌝ ⌜"::"⌝ ⌜"1::"⌝); [done|by left]]. cbn [rbind].
    rewrite subst_all_free; [|done|apply (HF _ ⌜"__"⌝ ⌜"::"⌝ ⌜"fs::"⌝); [done|by left]]. cbn [rbind].
    by eapply after_namespaces.
Qed.

(** ** MSVC *)
Global Instance keyword_eq_dec : EqDecision keyword.
Proof. solve_decision. Defined.
Definition kw_word (r : keyword -> bool) (i : item) : text :=
  match i with Id k n => (if r k then keyword_text k else []) ++ n | _ => common_word i end.
Definition without (k : keyword) (r : keyword -> bool) (k' : keyword) : bool :=
  match k, k' with Struct, Struct | Class, Class | Enum, Enum => false | _, _ => r k' end.

Lemma kw_facts k : k <> Built_in -> exists c f, keyword_text k = c :: f /\ c ∉ delims /\ c ∉ f /\ ~ a_digit c /\ " "%char ∈ f /\
  Forall (fun c => c ∉ ⌜"<>,"⌝) (c :: f).
Proof.
  destruct k; [done|..]; intros _; eexists _, _; (split; [reflexivity|]); repeat split; apply (bool_decide_unpack _); by vm_compute.
Qed.

Lemma name_skips k n rest : k <> Built_in -> Forall name_char n -> starts rest -> skips (keyword_text k) n rest.
Proof.
  intros Hk Hn Hr. destruct (kw_facts k Hk) as (c&f&->&_&_&_&Hb&Hf). apply skips_word; [|by apply starts_not].
  apply (not_occurs_char _ _ " "%char); [by right|]. apply word_free_char; [by apply names_words|vm_compute; lia].
Qed.

Lemma keyword_pass k0 r n i l t : k0 <> Built_in -> Forall name_char n -> Forall item_ok (map snd l) -> flat_ok i l t ->
  subst_between (n ++ rest_text (kw_word r) spaced ⌜","⌝ l t) ⌜"<,"⌝ (keyword_text k0) [] [] =
  Ok (n ++ rest_text (kw_word (without k0 r)) spaced ⌜","⌝ l t).
Proof.
  intros Hk Hn Hl Hok. pose proof (name_skips k0) as HN. destruct (kw_facts k0 Hk) as (c&f&E&Hc&Hcf&Hd&Hb&Hf).
  assert (forall k v rest, k <> k0 -> skips (keyword_text k0) v rest -> skips (keyword_text k0) (keyword_text k ++ v) rest) as HK.
  { intros k v rest Hne Hv. apply skips_app; [|done]. apply skips_clash. by destruct k, k0. }
  assert (forall j rest, item_ok j -> starts rest -> match j with
    | Id k m => skips (keyword_text k0) m rest /\ ((k = k0 /\ r k = true /\ kw_word (without k0 r) j = [] ++ m) \/
                (kw_word (without k0 r) j = kw_word r j /\ skips (keyword_text k0) (kw_word r j) rest))
    | _ => kw_word (without k0 r) j = kw_word r j /\ skips (keyword_text k0) (kw_word r j) rest end) as HJ.
  { intros j rest Hj Hr. destruct j as [k m|d s|b].
    - assert (skips (keyword_text k0) m rest) as Hm by (apply HN; [done|by destruct Hj as (_&H&_)|done]). split; [done|].
      cbn [kw_word]. destruct (decide (k = k0)) as [->|Hne].
      + assert (without k0 r k0 = false) as -> by (by destruct k0). destruct (r k0); [left; done|]. right. done.
      + right. assert (without k0 r k = r k) as -> by (by destruct k0, k). split; [done|]. destruct (r k); [by apply HK|done].
    - cbn [kw_word common_word]. split; [done|]. rewrite E. apply digits_skips; [|done]. by destruct Hj as (_&H&_).
    - cbn [kw_word common_word]. split; [done|]. rewrite E. apply digits_skips; [apply Forall_bit|done]. }
  rewrite E in *.
  apply (subst_between_flat spaced ⌜","⌝ c f ⌜"<,"⌝ [] [] n (kw_word r) (kw_word (without k0 r)) i l t spaced_ok (or_introl eq_refl) Hc Hcf); [| | |done].
  - apply HN; [done|done|]. apply starts_rest; [apply spaced_ok|by left].
  - intros j prev rest out Hj Hp Hr Hcl HR. specialize (HJ j rest (proj1 (Forall_forall _ _) Hl _ Hj) Hr).
    assert (kw_word (without k0 r) j = kw_word r j /\ skips (c :: f) (kw_word r j) rest ->
      replaced_if (any_of ⌜"<,"⌝) (any_of []) (c :: f) [] prev (kw_word r j ++ rest) (kw_word (without k0 r) j ++ out)) as HS.
    { intros [-> Hs]. by apply rif_word. }
    destruct j as [k m|d s|b]; [|by apply HS..]. destruct HJ as [Hm [(->&Hrk&->)|HJ]]; [|by apply HS].
    assert (kw_word r (Id k0 m) = (c :: f) ++ m) as Ew by (cbn [kw_word]; by rewrite Hrk, E). rewrite Ew in HR |- *.
    apply rif_hit; [|done|done|done]. destruct Hp as [->|[= <-]]; done.
  - intros j rest Hj Hr HL. specialize (HJ j rest (proj1 (Forall_forall _ _) Hl _ Hj) Hr).
    destruct j as [k m|d s|b]; [|by apply lone_word; [apply HJ|]..]. destruct HJ as [Hm [(->&Hrk&_)|[_ HJ]]]; [|by apply lone_word].
    assert (kw_word r (Id k0 m) = (c :: f) ++ m) as -> by (cbn [kw_word]; by rewrite Hrk, E).
    apply lone_hit; [done| |done|done]. pose proof (proj1 (Forall_forall _ _) Hl _ Hj) as (Hne&_). apply Hm. destruct m; [done|]. cbn. lia.
Qed.

Lemma peel_not p l : ~ occurs_at p l 0 -> peel p l = l.
Proof.
  intros H. unfold peel. destruct (starts_with p l) eqn:E; [|done]. exfalso. apply H. apply occurs_at_0. by apply starts_with_spec.
Qed.
Lemma peel_yes p l : peel p (p ++ l) = l.
Proof.
  unfold peel. assert (starts_with p (p ++ l) = true) as -> by (apply starts_with_spec; by exists l). apply drop_app.
Qed.

Lemma peels k n rest : name_ok n -> starts rest ->
  peel ⌜"enum "⌝ (peel ⌜"class "⌝ (peel ⌜"struct "⌝ ((keyword_text k ++ n) ++ rest))) = n ++ rest.
Proof.
  intros (Hne&Hn&_) Hr. rewrite <-app_assoc.
  assert (forall k', k' <> Built_in -> peel (keyword_text k') (n ++ rest) = n ++ rest) as HP.
  { intros k' Hk. apply peel_not. apply (name_skips k' n rest Hk Hn Hr). destruct n; [done|]. cbn. lia. }
  assert (forall k' k'', k' <> Built_in -> k'' <> Built_in -> k' <> k'' -> peel (keyword_text k') (keyword_text k'' ++ n ++ rest) = keyword_text k'' ++ n ++ rest) as HQ.
  { intros k' k'' H1 H2 H3. apply peel_not. apply (skips_clash (keyword_text k') (keyword_text k'') (n ++ rest)); [by destruct k', k''|].
    destruct k''; [done|cbn; lia..]. }
  change ⌜"enum "⌝ with (keyword_text Enum). change ⌜"class "⌝ with (keyword_text Class). change ⌜"struct "⌝ with (keyword_text Struct).
  destruct k.
  - change (keyword_text Built_in ++ n ++ rest) with (n ++ rest). by rewrite !HP by done.
  - rewrite peel_yes. by rewrite !HP by done.
  - rewrite HQ by done. rewrite peel_yes. by rewrite HP by done.
  - rewrite HQ by done. rewrite HQ by done. apply peel_yes.
Qed.

Lemma rest_ext w w' cl comma l t : Forall (fun i => w i = w' i) (map snd l) -> rest_text w cl comma l t = rest_text w' cl comma l t.
Proof.
  intros H. unfold rest_text. f_equal. f_equal. apply map_ext_Forall. rewrite Forall_map in H. eapply Forall_impl; [exact H|].
  intros si ->. done.
Qed.

Lemma msvc_flat i64 k n i l t : name_ok n -> Forall item_ok (map snd l) -> flat_ok i l t ->
  tidy_name_msvc i64 ((keyword_text k ++ n) ++ rest_text msvc_word spaced ⌜","⌝ l t) = Ok (n ++ rest_text common_word spaced ⌜", "⌝ l t).
Proof.
  intros Hn Hl Hok. unfold tidy_name_msvc. rewrite peels; [|done|apply starts_rest; [apply spaced_ok|by left]].
  assert (Forall name_char n) as Hn' by (by destruct Hn as (_&?&_)).
  rewrite (rest_ext msvc_word (kw_word (fun _ => true))) by (apply Forall_forall; intros [] _; done).
  rewrite (keyword_pass Struct _ n i l t) by done. cbn [rbind].
  rewrite (keyword_pass Class _ n i l t) by done. cbn [rbind].
  rewrite (keyword_pass Enum _ n i l t) by done. cbn [rbind].
  rewrite (rest_ext (kw_word _) common_word).
  2: { apply Forall_forall. intros [k' m| |] _; [|done|done]. by destruct k'. }
  assert (Forall (fun j => Forall word_char (common_word j) /\ common_word j <> []) (map snd l)) as Hw.
  { eapply Forall_impl; [exact Hl|]. intros j Hj. apply words_words; [tauto|done]. }
  assert (Forall word_char n) as Hnw by (by apply names_words).
  assert (forall x, subst_all x ⌜","⌝ ⌜", "⌝ = Ok (subst_char "," ⌜", "⌝ x)) as -> by (intros x; apply replace_all_char; lia). cbn [rbind].
  rewrite subst_char_app, subst_char_none by (apply word_free_char; [done|vm_compute; lia]).
  rewrite subst_char_rest.
  2: { apply (items_at (fun j => ","%char ∉ common_word j)). eapply Forall_impl; [exact Hw|]. intros j [Hj _]. apply word_free_char; [done|vm_compute; lia]. }
  rewrite subst_all_free; [|done|].
  2: { apply no_blank_comma; [apply word_free_char; [done|vm_compute; lia]|].
       apply (items_at (fun j => " "%char ∉ common_word j /\ common_word j <> [] /\ head (common_word j) <> Some ","%char)).
       eapply Forall_impl; [exact Hw|]. intros j [Hj Hne]. split; [apply word_free_char; [done|vm_compute; lia]|]. split; [done|].
       destruct (common_word j) as [|x v]; [done|]. rewrite Forall_cons in Hj. intros [= ->]. destruct Hj as [Hx _].
       apply code_cases in Hx. vm_compute in Hx. lia. }
  cbn [rbind].
  assert (forall p q a b, p = a ++ q ++ b -> q = ⌜"__"⌝ \/ q = ⌜"_A"⌝ -> ~ occurs p (n ++ rest_text common_word spaced ⌜", "⌝ l t)) as HF.
  { intros p q a b E Hq. apply (text_special p q a b underscore); try done; try tauto.
    - destruct Hq as [->| ->]; apply (bool_decide_unpack _); by vm_compute.
    - destruct Hq as [->| ->]; apply (bool_decide_unpack _); by vm_compute.
    - destruct Hq as [->| ->]; apply (bool_decide_unpack _); by vm_compute.
    - apply spaced_ok.
    - by right. }
  rewrite subst_all_free; [|done|apply (HF _ ⌜"__"⌝ ⌜" & "⌝ ⌜"ptr64"⌝); [done|by left]]. cbn [rbind].
  rewrite subst_all_free; [|done|apply (HF _ ⌜"__"⌝ ⌜" * "⌝ ⌜"ptr64"⌝); [done|by left]]. cbn [rbind].
  rewrite subst_all_free; [|done|].
  2: { apply (not_occurs_char _ _ "`"%char); [by left|].
       apply text_chars; [apply spaced_ok|by right|apply (bool_decide_unpack _); by vm_compute| |].
       + apply word_free_char; [done|vm_compute; lia].
       + apply (items_at (fun j => "`"%char ∉ common_word j)). eapply Forall_impl; [exact Hw|]. intros j [Hj _]. apply word_free_char; [done|vm_compute; lia]. }
  cbn [rbind].
  assert (match i64 with Some t0 => subst_all (n ++ rest_text common_word spaced ⌜", "⌝ l t) ⌜"__int64"⌝ t0
          | None => Ok (n ++ rest_text common_word spaced ⌜", "⌝ l t) end = Ok (n ++ rest_text common_word spaced ⌜", "⌝ l t)) as ->.
  { destruct i64; [|done]. apply subst_all_free; [done|]. apply (HF _ ⌜"__"⌝ [] ⌜"int64"⌝); [done|by left]. }
  cbn [rbind].
  rewrite subst_all_free; [|done|apply (HF _ ⌜"__"⌝ [] ⌜"cdecl(void)"⌝); [done|by left]]. cbn [rbind].
  rewrite subst_all_free; [|done|apply (HF _ ⌜"__"⌝ [] ⌜"cdecl"⌝); [done|by left]]. cbn [rbind].
  unfold process_array_iterators. cbn [array_iterators_loop]. unfold find_sandwiched_text.
  pose proof (find_from_app_None array_opening [] (n ++ rest_text common_word spaced ⌜", "⌝ l t)) as E.
  cbn [app length] in E. rewrite E; [done|].
  apply (HF _ ⌜"_A"⌝ ⌜"std::"⌝ ⌜"rray_const_iterator<"⌝); [done|by right].
Qed.

(** ** Types *)
Theorem compilers_agree sc lp64 cv i64 ty : is_type ty -> ty_ok ty ->
  tidy_name_gcc sc lp64 cv (gcc_text ty) = Ok (common_text ty) /\
  tidy_name_clang sc lp64 cv (gcc_text ty) = Ok (common_text ty) /\
  tidy_name_msvc i64 (msvc_text ty) = Ok (common_text ty).
Proof.
  intros Ht Hok. pose proof (flatten_items ty Hok) as Hi. destruct (flatten_top ty Ht) as (Hid&Hf&_).
  rewrite flatten_gcc, (flatten_msvc ty Hok), (flatten_common ty Hok).
  unfold all_items in Hi. rewrite Forall_cons in Hi. destruct Hi as [H0 Hl]. unfold flat_text.
  destruct (first (flatten ty)) as [k n| |]; [|done|done]. cbn [gcc_word msvc_word common_word item_ok] in *.
  destruct (gcc_flat sc lp64 cv n _ _ _ H0 Hl Hf) as [H1 H2]. split; [exact H1|]. split; [exact H2|].
  exact (msvc_flat i64 k n _ _ _ H0 Hl Hf).
Qed.
