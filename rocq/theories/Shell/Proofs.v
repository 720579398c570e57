(** Proofs about the commands for the shell. *)
From Coq Require Import Ascii String.
From stdpp Require Import list.
From Verif.Base Require Import Outcome ListLemmas.
From Verif.Text Require Import Model Spec ProofsCase.
From Verif.Names Require Import Model.
From Verif.Shell Require Import Model Spec.
Local Open Scope res_scope.
Local Notation "⌜ s ⌝" := (list_ascii_of_string s%string).
Local Notation length := List.length.

(** ** The monoid *)
Lemma and_then_empty_l a : and_then [] a = a.
Proof. by destruct a. Qed.
Lemma and_then_empty_r a : and_then a [] = a.
Proof. done. Qed.
Lemma and_then_cons a b : a <> [] -> b <> [] -> and_then a b = a ++ ⌜"&&"⌝ ++ b.
Proof. by destruct a, b. Qed.
Lemma and_then_assoc a b c : and_then a (and_then b c) = and_then (and_then a b) c.
Proof.
  destruct (decide (a = [])) as [->|Ha]; [by rewrite !and_then_empty_l|].
  destruct (decide (b = [])) as [->|Hb]; [by rewrite and_then_empty_l|].
  destruct (decide (c = [])) as [->|Hc]; [done|].
  rewrite (and_then_cons b c), (and_then_cons a b) by done.
  rewrite !and_then_cons; [by rewrite <-!app_assoc|try done..].
  - by destruct a.
  - by destruct b.
Qed.
Lemma and_then_nil a b : and_then a b = [] <-> a = [] /\ b = [].
Proof. destruct a, b; cbn; naive_solver. Qed.

(** ** Tokens *)
Lemma flush_app acc ts us : flush acc (ts ++ us) = flush acc ts ++ us.
Proof. by destruct acc. Qed.
Lemma flush_number_app acc ts us : flush_number acc (ts ++ us) = flush_number acc ts ++ us.
Proof. unfold flush_number. case_match; [done|apply flush_app]. Qed.

Lemma a_number_last acc : a_number acc = true -> exists c, last acc = Some c /\ c ∈ ⌜"0123456789"⌝.
Proof.
  unfold a_number. rewrite andb_true_iff, negb_true_iff, bool_decide_eq_false. intros [Hne H].
  destruct acc as [|c acc _] using rev_ind; [done|]. exists c. rewrite last_snoc. split; [done|].
  rewrite forallb_app, andb_true_iff in H. destruct H as [_ H]. cbn in H. rewrite andb_true_r in H.
  by apply bool_decide_eq_true in H.
Qed.

(** What follows a text: a blank or "&&" anyway, a redirection if the text does not end with a digit. *)
Definition separated (l r : text) : Prop :=
  head r = Some blank \/ head r = Some amp \/
  (head r = Some great /\ forall c, last l = Some c -> c ∉ ⌜"0123456789"⌝).

Lemma tokens_head acc r : (head r = Some blank \/ head r = Some amp \/ (head r = Some great /\ a_number acc = false)) ->
  tokens acc r = flush acc <$> tokens [] r.
Proof.
  destruct r as [|c r]; [intros H; destruct_or! H; [..|destruct H as [H _]]; discriminate|].
  cbn [head]. intros H.
  destruct H as [[= ->] | [[= ->] | [[= ->] H]]]; cbn [tokens].
  - rewrite decide_True by done. by destruct (tokens [] r).
  - rewrite decide_False, decide_True by done. destruct r as [|d r]; [done|]. case_decide; [|done].
    by destruct (tokens [] r).
  - rewrite decide_False by done. rewrite decide_False, decide_True by done.
    assert (forall ts, flush_number acc ts = flush acc (flush_number [] ts)) as HF.
    { intros ts. unfold flush_number at 1. by rewrite H. }
    destruct r as [|d r]; [by cbn; rewrite HF|].
    case_decide; [by destruct (tokens [] r); cbn; rewrite ?HF|].
    case_decide; [by destruct (tokens [] r); cbn; rewrite ?HF|].
    by destruct (tokens [] (d :: r)); cbn; rewrite ?HF.
Qed.

Lemma tokens_app n : forall acc l r ts, length l <= n -> separated (acc ++ l) r -> last l <> Some great ->
  tokens acc l = Some ts -> tokens acc (l ++ r) = app ts <$> tokens [] r.
Proof.
  induction n as [|n IH]; intros acc l r ts Hlen Hsep Hlast HT.
  - destruct l; [|cbn in Hlen; lia]. cbn [tokens] in HT. injection HT as <-. cbn [app].
    rewrite tokens_head.
    + destruct (tokens [] r); [|done]. cbn. by rewrite <-flush_app.
    + destruct Hsep as [H|[H|[H Hd]]]; [tauto..|]. right. right. split; [done|].
      destruct (a_number acc) eqn:E; [|done]. apply a_number_last in E as (c&Hc&Hin).
      rewrite app_nil_r in Hd. by destruct (Hd c Hc).
  - destruct l as [|c l]; [by apply (IH acc [] r ts); cbn; try lia|].
    cbn [length] in Hlen.
    assert (forall l', l' `suffix_of` l -> separated ([] ++ l') r) as HS.
    { intros l' [k Hk]. destruct Hsep as [H|[H|[H Hd]]]; [left; done|right; left; done|]. right. right. split; [done|].
      intros d Hd'. apply Hd. rewrite Hk. cbn in Hd'. change (c :: k ++ l') with ((c :: k) ++ l'). rewrite app_assoc. by rewrite last_app, Hd'. }
    assert (forall l' ts', l' `suffix_of` l -> tokens [] l' = Some ts' -> tokens [] (l' ++ r) = app ts' <$> tokens [] r) as HI.
    { intros l' ts' Hsuf Ht. apply IH; [|by apply HS| |done].
      - apply suffix_length in Hsuf. lia.
      - destruct Hsuf as [k ->]. intros E. apply Hlast. change (c :: k ++ l') with ((c :: k) ++ l'). by rewrite last_app, E. }
    cbn [tokens] in HT. cbn [app tokens].
    case_decide as E1.
    { apply fmap_Some in HT as (us&Hus&->). rewrite (HI l us) by done.
      destruct (tokens [] r); [|done]. cbn. by rewrite <-flush_app. }
    case_decide as E2.
    { destruct l as [|d l]; [done|]. cbn [app]. case_decide; [|done].
      apply fmap_Some in HT as (us&Hus&->). rewrite (HI l us); [|by apply suffix_cons_r|done].
      destruct (tokens [] r); [|done]. cbn. by rewrite <-flush_app. }
    case_decide as E3.
    { destruct l as [|d l]; [subst c; by destruct Hlast|]. cbn [app]. cbn [app] in HI.
      case_decide.
      { apply fmap_Some in HT as (us&Hus&->). rewrite (HI l us); [|by apply suffix_cons_r|done].
        destruct (tokens [] r); [|done]. cbn. by rewrite <-flush_number_app. }
      case_decide.
      { apply fmap_Some in HT as (us&Hus&->). rewrite (HI l us); [|by apply suffix_cons_r|done].
        destruct (tokens [] r); [|done]. cbn. by rewrite <-flush_number_app. }
      apply fmap_Some in HT as (us&Hus&->). change (d :: l ++ r) with ((d :: l) ++ r). rewrite (HI (d :: l) us); [|done|done].
      destruct (tokens [] r); [|done]. cbn [fmap option_fmap option_map]. f_equal. by rewrite <-flush_number_app. }
    case_decide as E4; [done|].
    apply IH; [lia| | |done].
    + by rewrite <-app_assoc.
    + intros E. apply Hlast. destruct l; [done|]. by rewrite last_cons_cons.
Qed.

Lemma tokens_plain acc w : Forall plain_char w -> tokens acc w = Some (flush (acc ++ w) []).
Proof.
  intros H. revert acc. induction H as [|c w (H1&H2&H3&H4) _ IH]; intros acc; [by rewrite app_nil_r|].
  cbn [tokens]. rewrite !decide_False by done. rewrite IH. by rewrite <-app_assoc.
Qed.

Lemma tokens_word w : plain w -> tokens [] w = Some [Word w].
Proof. intros [Hne H]. rewrite tokens_plain by done. by destruct w. Qed.

Lemma plain_last w c : plain w -> last w = Some c -> plain_char c.
Proof. intros [_ H] Hc. apply last_Some in Hc as [k ->]. rewrite Forall_app, Forall_singleton in H. tauto. Qed.

Lemma tokens_words ws : ws <> [] -> Forall plain ws -> tokens [] (join [blank] ws) = Some (map Word ws).
Proof.
  intros Hne H. induction H as [|w ws Hw Hws IH]; [done|]. destruct ws as [|v ws]; [by apply tokens_word|].
  change (join [blank] (w :: v :: ws)) with (w ++ [blank] ++ join [blank] (v :: ws)).
  rewrite (tokens_app (length w) [] w _ [Word w]); [|done|by left| |by apply tokens_word].
  - cbn [app tokens]. rewrite decide_True by done. by rewrite IH.
  - intros E. apply (plain_last w) in E; [|done]. by destruct E as (_&_&H&_).
Qed.

(** ** Commands *)
Definition finished (c : command) : Prop := ~ (words c = [] /\ redirects c = []).

Lemma commands_app n : forall cur ts us cs, length ts <= n -> commands cur ts = Some cs ->
  exists cs' c, cs = cs' ++ [c] /\ finished c /\ commands cur (ts ++ us) = app cs' <$> commands c us.
Proof.
  induction n as [|n IH]; intros cur ts us cs Hn H.
  { destruct ts; [|cbn in Hn; lia]. cbn [commands] in H. case_decide; [done|]. injection H as <-.
    exists [], cur. split; [done|]. split; [done|]. cbn. by destruct (commands cur us). }
  destruct ts as [|t ts]; [by apply (IH cur []); [cbn; lia|]|]. cbn [length] in Hn.
  assert (forall cur ts', length ts' <= n -> commands cur ts' = Some cs -> exists cs' c, cs = cs' ++ [c] /\ finished c /\
    commands cur (ts' ++ us) = app cs' <$> commands c us) as HI by (intros; by apply IH).
  destruct t; cbn [commands app] in H |- *.
  - apply HI; [lia|done].
  - destruct ts as [|[] ts]; try done; destruct ts as [|[] ts]; try done; cbn [app length] in *; apply HI; done || lia.
  - case_decide; [done|]. apply fmap_Some in H as (ds&Hds&->).
    apply (IH _ _ us) in Hds as (cs'&c&->&Hf&E); [|lia]. exists (cur :: cs'), c. split; [done|]. split; [done|].
    rewrite E. by destruct (commands c us).
  - destruct ts as [|[] ts]; try done; cbn [app length] in *; apply HI; done || lia.
  - destruct ts as [|[] ts]; try done; cbn [app length] in *; apply HI; done || lia.
  - destruct ts as [|[] ts]; try done; cbn [app length] in *; apply HI; done || lia.
Qed.

Lemma commands_last_great n : forall cur ts t, length ts <= n -> t = Great \/ t = Dgreat \/ t = Greatand \/ t = And_if ->
  commands cur (ts ++ [t]) = None.
Proof.
  induction n as [|n IH]; intros cur ts t Hn Ht.
  { destruct ts; [|cbn in Hn; lia]. cbn. destruct_or! Ht; subst t; [done..|]. by case_decide. }
  destruct ts as [|u ts]; [by apply (IH cur []); [cbn; lia|]|]. cbn [length] in Hn.
  destruct u; cbn [commands app].
  - apply IH; [lia|done].
  - destruct ts as [|[] ts]; cbn [app]; [by destruct_or! Ht; subst t|..]; try done;
      (destruct ts as [|[] ts]; cbn [app length] in *; [by destruct_or! Ht; subst t|..]; try done; apply IH; done || lia).
  - case_decide; [done|]. rewrite IH; [done|lia|done].
  - destruct ts as [|[] ts]; cbn [app length] in *; [by destruct_or! Ht; subst t|..]; try done; apply IH; done || lia.
  - destruct ts as [|[] ts]; cbn [app length] in *; [by destruct_or! Ht; subst t|..]; try done; apply IH; done || lia.
  - destruct ts as [|[] ts]; cbn [app length] in *; [by destruct_or! Ht; subst t|..]; try done; apply IH; done || lia.
Qed.

(** A text which ends with the operator ends with its token. *)
Lemma tokens_last_great n : forall acc l ts, length l <= n -> last l = Some great -> tokens acc l = Some ts ->
  exists us t, ts = us ++ [t] /\ (t = Great \/ t = Dgreat \/ t = Greatand \/ t = And_if).
Proof.
  induction n as [|n IH]; intros acc l ts Hn Hl HT; [by destruct l; [|cbn in Hn; lia]|].
  destruct l as [|c l]; [done|]. cbn [length] in Hn.
  assert (forall acc' l' (f : list token -> list token), (forall us, exists us', f us = us' ++ us) -> l' `suffix_of` l -> l' <> [] ->
    f <$> tokens acc' l' = Some ts -> exists us t, ts = us ++ [t] /\ (t = Great \/ t = Dgreat \/ t = Greatand \/ t = And_if)) as HI.
  { intros acc' l' f Hf [k Hk] Hne H. apply fmap_Some in H as (us&Hus&->).
    destruct (IH acc' l' us) as (vs&t&->&Ht); [|..|done|].
    - subst l. rewrite app_length in Hn. lia.
    - subst l. change (c :: k ++ l') with ((c :: k) ++ l') in Hl. rewrite last_app in Hl. destruct (last l') eqn:E; [done|].
      by apply last_None in E.
    - destruct (Hf (vs ++ [t])) as [us' E]. exists (us' ++ vs), t. rewrite E, app_assoc. done. }
  assert (forall us, exists us', flush acc us = us' ++ us) as HF.
  { intros us. destruct acc as [|a acc]; [by exists []|by exists [Word (a :: acc)]]. }
  assert (forall us, exists us', flush_number acc us = us' ++ us) as HF'.
  { intros us. unfold flush_number. case_match; [by exists [Number acc]|apply HF]. }
  assert (forall t us, exists us', flush acc (t :: us) = us' ++ us) as HG.
  { intros t us. destruct (HF (t :: us)) as [us' E]. exists (us' ++ [t]). rewrite E, <-app_assoc. done. }
  assert (forall t us, exists us', flush_number acc (t :: us) = us' ++ us) as HG'.
  { intros t us. destruct (HF' (t :: us)) as [us' E]. exists (us' ++ [t]). rewrite E, <-app_assoc. done. }
  cbn [tokens] in HT.
  case_decide as E1.
  { eapply (HI [] l); [apply HF|done| |exact HT]. intros ->. subst c. discriminate Hl. }
  case_decide as E2.
  { destruct l as [|d l]; [done|]. case_decide as E3; [|done].
    eapply (HI [] l); [apply HG|by apply suffix_cons_r| |exact HT]. intros ->. subst d. discriminate Hl. }
  case_decide as E3.
  { destruct l as [|d l].
    - injection HT as <-. destruct (HF' [Great]) as [us' ->]. exists us', Great. tauto.
    - case_decide as E4.
      { destruct (decide (l = [])) as [->|Hne].
        - cbn in HT. injection HT as <-. destruct (HF' [Dgreat]) as [us' ->]. exists us', Dgreat. tauto.
        - eapply (HI [] l); [apply HG'|by apply suffix_cons_r|done|exact HT]. }
      case_decide as E5.
      { eapply (HI [] l); [apply HG'|by apply suffix_cons_r| |exact HT]. intros ->. subst d. discriminate Hl. }
      eapply (HI [] (d :: l)); [apply HG'|done|done|exact HT]. }
  case_decide; [done|].
  destruct l as [|d l].
  { injection Hl as ->. done. }
  eapply (IH (acc ++ [c]) (d :: l)); [lia|by rewrite last_cons_cons in Hl|done].
Qed.

Lemma reading_not_great l cs : reading l = Some cs -> last l <> Some great.
Proof.
  intros H Hl. destruct l as [|c l]; [done|]. unfold reading in H.
  apply bind_Some in H as (ts&HT&H). eapply tokens_last_great in HT as (us&t&->&Ht); [|reflexivity|done].
  erewrite commands_last_great in H; [done|reflexivity|done].
Qed.

Lemma reading_some l cs : l <> [] -> reading l = Some cs -> exists ts, tokens [] l = Some ts /\ commands (Command [] []) ts = Some cs.
Proof. destruct l as [|c l]; [done|]. intros _ H. by apply bind_Some in H. Qed.
Lemma reading_make l ts : l <> [] -> tokens [] l = Some ts -> reading l = commands (Command [] []) ts.
Proof. destruct l as [|c l]; [done|]. intros _ H. unfold reading. by rewrite H. Qed.

Theorem reading_and_then a b cs ds : reading a = Some cs -> reading b = Some ds -> reading (and_then a b) = Some (cs ++ ds).
Proof.
  intros Ha Hb.
  destruct (decide (a = [])) as [->|Hna]; [injection Ha as <-; by rewrite and_then_empty_l|].
  destruct (decide (b = [])) as [->|Hnb]; [injection Hb as <-; by rewrite app_nil_r|].
  rewrite and_then_cons by done. pose proof (reading_not_great _ _ Ha) as Hg.
  apply reading_some in Ha as (ts&HT&HC); [|done]. apply reading_some in Hb as (us&HU&HD); [|done].
  rewrite (reading_make _ (ts ++ And_if :: us)).
  - destruct (commands_app (length ts) _ ts (And_if :: us) cs (Nat.le_refl _) HC) as (cs'&c&->&Hf&E).
    rewrite E. cbn [commands]. rewrite decide_False by done. rewrite HD. cbn. by rewrite <-app_assoc.
  - by destruct a.
  - rewrite (tokens_app (length a) [] a (⌜"&&"⌝ ++ b) ts); [|done|by right; left|done|done].
    change (⌜"&&"⌝ ++ b) with (amp :: amp :: b). cbn [tokens]. rewrite decide_False, !decide_True by done. by rewrite HU.
Qed.

Lemma digit_code_spec c : digit_code c = true <-> c ∈ ⌜"0123456789"⌝.
Proof.
  split.
  - intros H. destruct c as [[] [] [] [] [] [] [] []]; vm_compute in H; try discriminate;
      apply (bool_decide_unpack _); by vm_compute.
  - intros H. cbn in H. repeat (apply elem_of_cons in H as [-> | H]; [reflexivity|]). by apply elem_of_nil in H.
Qed.

Lemma tokens_to output (app : bool) : plain output ->
  tokens [] ((if app then ⌜">> "⌝ else ⌜"> "⌝) ++ output ++ ⌜" 2>&1"⌝) =
  Some [if app then Dgreat else Great; Word output; Number stderr; Greatand; Word stdout].
Proof.
  intros Ho. assert (tokens [] (output ++ ⌜" 2>&1"⌝) = Some [Word output; Number stderr; Greatand; Word stdout]) as H.
  { rewrite (tokens_app (length output) [] output _ [Word output]); [done|done|by left| |by apply tokens_word].
    intros E. apply (plain_last output) in E; [|done]. by destruct E as (_&_&E&_). }
  destruct app.
  - change (⌜">> "⌝ ++ output ++ ⌜" 2>&1"⌝) with (great :: great :: blank :: output ++ ⌜" 2>&1"⌝).
    cbn [tokens]. rewrite decide_False, decide_False, !decide_True by done. by rewrite H.
  - change (⌜"> "⌝ ++ output ++ ⌜" 2>&1"⌝) with (great :: blank :: output ++ ⌜" 2>&1"⌝).
    cbn [tokens]. rewrite decide_False, decide_False, decide_True, decide_False, decide_False, decide_True by done. by rewrite H.
Qed.

Theorem with_output_reading sc cmd output app cs c : (forall d, last cmd = Some d -> ascii7 d) -> plain output ->
  reading cmd = Some (cs ++ [c]) ->
  exists l, with_output sc cmd output app = Ok l /\ l <> [] /\ reading l = Some (cs ++ [redirected c output app]).
Proof.
  intros H7 Ho H. assert (output <> []) as Hne by (by destruct Ho).
  assert (cmd <> []) as Hnc by (intros ->; injection H as H; by apply (f_equal length) in H; rewrite app_length in H; cbn in H; lia).
  pose proof (reading_not_great _ _ H) as Hg. apply reading_some in H as (ts&HT&HC); [|done].
  pose proof (tokens_to output app Ho) as HR.
  set (r := (if app then ⌜">> "⌝ else ⌜"> "⌝) ++ output ++ ⌜" 2>&1"⌝) in *.
  assert (exists l, with_output sc cmd output app = Ok l /\ l <> [] /\ tokens [] l = (ts ++.) <$> tokens [] r) as (l&El&Hnl&HL).
  { unfold with_output. destruct output as [|o output]; [done|]. destruct (last cmd) as [d|] eqn:Ed.
    - unfold isdigit. rewrite cctype_7 by (by apply H7). cbn [rbind]. eexists. split; [reflexivity|].
      destruct (digit_code d) eqn:E.
      + split; [by destruct cmd|]. rewrite <-app_assoc. fold r.
        rewrite (tokens_app (length cmd) [] cmd (⌜" "⌝ ++ r) ts); [|done|by left|by rewrite Ed|done].
        change (⌜" "⌝ ++ r) with (blank :: r). cbn [tokens]. rewrite decide_True by done. by destruct (tokens [] r).
      + split; [by destruct cmd|]. fold r. apply (tokens_app (length cmd)); [done| |by rewrite Ed|done].
        right. right. split; [by destruct app|]. intros e. cbn. rewrite Ed. intros [= <-] Hin.
        apply digit_code_spec in Hin. congruence.
    - apply last_None in Ed. done. }
  exists l. split; [done|]. split; [done|]. rewrite HR in HL. erewrite reading_make by done.
  destruct (commands_app (length ts) _ ts [if app then Dgreat else Great; Word output; Number stderr; Greatand; Word stdout] _ (Nat.le_refl _) HC)
    as (cs'&c'&Eq&Hf&E).
  apply app_inj_tail in Eq as [<- <-]. rewrite E.
  destruct app; cbn [commands]; (rewrite decide_False; [|intros [_ Hr]; cbn in Hr; by destruct (redirects c)]);
    cbn [fmap option_fmap option_map]; unfold redirected, add_redirect; cbn [words redirects]; by rewrite <-app_assoc.
Qed.

Lemma reading_words ws : ws <> [] -> Forall plain ws -> reading (join [blank] ws) = Some [Command ws []].
Proof.
  intros Hne H. rewrite (reading_make _ (map Word ws)).
  - assert (forall cur, (ws <> [] \/ words cur <> []) -> commands cur (map Word ws) = Some [Command (words cur ++ ws) (redirects cur)]) as HC.
    { clear H Hne. induction ws as [|w ws IH]; intros [ws' rs] Hc; cbn [map commands].
      - destruct Hc as [Hc|Hc]; [done|]. rewrite decide_False by (intros [? _]; done). by rewrite app_nil_r.
      - rewrite IH; [cbn; by rewrite <-app_assoc|]. right. cbn. by destruct ws'. }
    by rewrite HC by (by left).
  - destruct ws as [|w ws]; [done|]. rewrite Forall_cons in H. destruct H as [[Hw _] _]. destruct w; [done|]. by destruct ws.
  - by apply tokens_words.
Qed.

(** ** Preamble *)
Lemma with_preamble_reading sc msvc ws cmd output app cs c :
  Forall plain ws -> Forall (Forall ascii7) ws -> (forall d, last cmd = Some d -> ascii7 d) -> plain output -> reading cmd = Some (cs ++ [c]) ->
  exists l, with_preamble sc msvc (join [blank] ws) cmd output app = Ok l /\
    reading l = Some (match ws with
      | [] => cs ++ [redirected c output app]
      | _ => let newline := if msvc then ⌜"echo/"⌝ else ⌜"echo"⌝ in
             [redirected (Command [newline] []) output app; redirected (Command (⌜"echo"⌝ :: ws) []) output true;
              redirected (Command [newline] []) output true] ++ cs ++ [redirected c output true]
      end).
Proof.
  intros Hws H7 Hc Ho H. unfold with_preamble. destruct ws as [|w ws].
  - cbn [join rbind]. destruct (with_output_reading sc cmd output app cs c Hc Ho H) as (l&->&_&Hl). exists l. split; [cbn [rbind]; by rewrite and_then_empty_l|done].
  - set (newline := if msvc then ⌜"echo/"⌝ else ⌜"echo"⌝).
    assert (join [blank] (w :: ws) <> []) as Hnj.
    { rewrite Forall_cons in Hws. destruct Hws as [[Hw _] _]. destruct w; [done|]. by destruct ws. }
    assert (plain newline /\ Forall ascii7 newline) as [Hpn H7n].
    { destruct msvc; (split; [split; [done|]|]); apply (bool_decide_unpack _); by vm_compute. }
    assert (forall app, exists l, with_output sc newline output app = Ok l /\ l <> [] /\
      reading l = Some [redirected (Command [newline] []) output app]) as HN.
    { intros app'. apply (with_output_reading sc newline output app' [] (Command [newline] [])); [|done|].
      - intros d Hd. apply last_Some in Hd as [k Hk]. rewrite Hk in H7n. rewrite Forall_app, Forall_singleton in H7n. tauto.
      - by apply (reading_words [newline]); [|apply Forall_singleton]. }
    destruct (HN app) as (la&Ea&Hna&HA). destruct (HN true) as (lc&Ec&Hnc&HC).
    assert (exists l, with_output sc (⌜"echo "⌝ ++ join [blank] (w :: ws)) output true = Ok l /\ l <> [] /\
      reading l = Some [redirected (Command (⌜"echo"⌝ :: w :: ws) []) output true]) as (lb&Eb&Hnb&HB).
    { apply (with_output_reading sc _ output true [] (Command (⌜"echo"⌝ :: w :: ws) [])); [|done|].
      - intros d Hd. rewrite last_app in Hd. destruct (last (join [blank] (w :: ws))) as [e|] eqn:E; [|by apply last_None in E].
        injection Hd as ->. apply last_Some in E as [k Hk].
        assert (Forall ascii7 (join [blank] (w :: ws))) as HF.
        { clear -H7. revert w H7. induction ws as [|v ws IH]; intros w H7; rewrite Forall_cons in H7; destruct H7 as [Hw H7]; [done|].
          change (join [blank] (w :: v :: ws)) with (w ++ [blank] ++ join [blank] (v :: ws)). rewrite !Forall_app. split; [done|].
          split; [|by apply IH]. rewrite Forall_singleton. unfold ascii7. vm_compute. lia. }
        rewrite Hk in HF. rewrite Forall_app, Forall_singleton in HF. tauto.
      - change (⌜"echo "⌝ ++ join [blank] (w :: ws)) with (join [blank] (⌜"echo"⌝ :: w :: ws)).
        apply reading_words; [done|]. apply Forall_cons_2; [|done]. split; [done|]. apply (bool_decide_unpack _). by vm_compute. }
    destruct (with_output_reading sc cmd output true cs c Hc Ho H) as (ld&Ed&Hnd&HD).
    destruct (join [blank] (w :: ws)) as [|j js] eqn:Ej; [done|]. rewrite <-Ej in *. clear Ej.
    rewrite Ea, Eb, Ec. cbn [rbind].
    destruct (and_then (and_then la lb) lc) as [|x xs] eqn:Ex; [by apply and_then_nil in Ex as [_ ->]|]. rewrite <-Ex. clear Ex.
    rewrite Ed. cbn [rbind]. eexists. split; [reflexivity|]. cbv zeta.
    by apply (reading_and_then _ _ ([_] ++ [_] ++ [_])); [apply (reading_and_then _ _ ([_] ++ [_])); [apply reading_and_then|]|].
Qed.

(** ** Nothing written gets lost *)
Lemma targets_redirected f (app : bool) :
  let m := targets [if app then Append stdout f else Truncate stdout f; Copy stderr stdout] in
  m stdout = File f app /\ m stderr = File f app.
Proof. by destruct app. Qed.

Lemma after_redirected f ws (a : bool) said content : usual said ->
  after f (redirected (Command ws []) f a) said content = (if a then content else []) ++ concat (map snd said).
Proof.
  intros H. unfold after, redirected. cbn [redirects words app].
  destruct (targets_redirected f a) as [H1 H2]. cbn [app] in *.
  set (m := targets [if a then Append stdout f else Truncate stdout f; Copy stderr stdout]) in *. f_equal.
  - destruct a; cbn; [done|]. by rewrite bool_decide_eq_true_2.
  - f_equal. f_equal. induction H as [|[fd t] said Hp _ IH]; [done|]. cbn [List.filter].
    assert (goes_to f m (fd, t) = true) as ->.
    { unfold goes_to. cbn [fst]. cbn [fst] in Hp. destruct Hp as [Hp | Hp]; rewrite Hp, ?H1, ?H2; by apply bool_decide_eq_true. }
    by rewrite IH.
Qed.

Theorem after_preamble f (a : bool) ws1 ws2 ws3 ws4 s1 s2 s3 s4 content :
  Forall usual [s1; s2; s3; s4] ->
  after_all f [redirected (Command ws1 []) f a; redirected (Command ws2 []) f true; redirected (Command ws3 []) f true; redirected (Command ws4 []) f true]
    [s1; s2; s3; s4] content =
  (if a then content else []) ++ concat (map snd (s1 ++ s2 ++ s3 ++ s4)).
Proof.
  rewrite !Forall_cons. intros (H1&H2&H3&H4&_). cbn [after_all]. rewrite !after_redirected by done.
  rewrite !map_app, !concat_app, <-!app_assoc. done.
Qed.

Theorem preamble_collects sc msvc ws cmd output (a : bool) c said content l :
  Forall plain ws -> Forall (Forall ascii7) ws -> (forall d, last cmd = Some d -> ascii7 d) -> plain output -> reading cmd = Some [c] ->
  redirects c = [] -> with_preamble sc msvc (join [blank] ws) cmd output a = Ok l ->
  forall cs, reading l = Some cs -> length said = length cs -> Forall usual said ->
  after_all output cs said content = (if a then content else []) ++ concat (map snd (concat said)).
Proof.
  intros Hws H7 Hc Ho H Hr El cs HR Hlen Hu. destruct c as [cw cr]. cbn [redirects] in Hr. subst cr.
  destruct (with_preamble_reading sc msvc ws cmd output a [] (Command cw []) Hws H7 Hc Ho H) as (l'&El'&HR').
  rewrite El in El'. injection El' as <-. rewrite HR in HR'. injection HR' as ->. clear HR.
  destruct ws as [|w ws]; cbn [app length] in *.
  - destruct said as [|s1 [|? ?]]; try (cbn in Hlen; lia). rewrite Forall_singleton in Hu. cbn [after_all].
    rewrite after_redirected by done. cbn [concat]. by rewrite app_nil_r.
  - destruct said as [|s1 [|s2 [|s3 [|s4 [|? ?]]]]]; try (cbn in Hlen; lia).
    rewrite after_preamble by done. cbn [concat]. by rewrite app_nil_r.
Qed.

(** ** The commands of the test framework *)
Lemma plain_ascii w : plain w -> Forall ascii7 w -> forall pre d, last (pre ++ w) = Some d -> ascii7 d.
Proof.
  intros [Hne _] H pre d Hd. rewrite last_app in Hd. destruct (last w) as [e|] eqn:E; [|by apply last_None in E].
  injection Hd as ->. apply last_Some in E as [k ->]. rewrite Forall_app, Forall_singleton in H. tauto.
Qed.

Lemma build_cmd_reading sc msvc b output : plain (cmake_cache_dir b) -> Forall ascii7 (cmake_cache_dir b) -> plain output ->
  exists l n, build_cmd sc msvc b output = Ok l /\
    reading l = Some [redirected (Command [n] []) output false; redirected (Command [⌜"echo"⌝; ⌜"Building..."⌝] []) output true;
      redirected (Command [n] []) output true; redirected (Command [⌜"cmake"⌝; ⌜"--build"⌝; ⌜"--preset"⌝; cmake_cache_dir b] []) output true].
Proof.
  intros Hp H7 Ho. unfold build_cmd.
  destruct (with_preamble_reading sc msvc [⌜"Building..."⌝] (⌜"cmake --build --preset "⌝ ++ cmake_cache_dir b) output false []
    (Command [⌜"cmake"⌝; ⌜"--build"⌝; ⌜"--preset"⌝; cmake_cache_dir b] [])) as (l&El&HR); [..|eexists l, _; exact (conj El HR)].
  - rewrite Forall_singleton. split; [done|]. apply (bool_decide_unpack _). by vm_compute.
  - rewrite Forall_singleton. apply (bool_decide_unpack _). by vm_compute.
  - by apply plain_ascii.
  - done.
  - apply (reading_words [⌜"cmake"⌝; ⌜"--build"⌝; ⌜"--preset"⌝; cmake_cache_dir b]); [done|].
    repeat apply Forall_cons_2; [..|done|done]; (split; [done|apply (bool_decide_unpack _); by vm_compute]).
Qed.

Lemma cmake_cmd_reading sc msvc b output : plain (cmake_cache_dir b) -> Forall ascii7 (cmake_cache_dir b) -> plain output ->
  exists l n, cmake_cmd sc msvc b output None = Ok l /\
    reading l = Some [redirected (Command [n] []) output false; redirected (Command [⌜"echo"⌝; ⌜"Running"⌝; ⌜"CMake..."⌝] []) output true;
      redirected (Command [n] []) output true; redirected (Command [⌜"cmake"⌝; ⌜"--preset"⌝; cmake_cache_dir b] []) output true].
Proof.
  intros Hp H7 Ho. unfold cmake_cmd.
  destruct (with_preamble_reading sc msvc [⌜"Running"⌝; ⌜"CMake..."⌝] (⌜"cmake --preset "⌝ ++ cmake_cache_dir b) output false []
    (Command [⌜"cmake"⌝; ⌜"--preset"⌝; cmake_cache_dir b] [])) as (l&El&HR); [..|eexists l, _; exact (conj El HR)].
  - repeat apply Forall_cons_2; [..|done]; (split; [done|apply (bool_decide_unpack _); by vm_compute]).
  - repeat apply Forall_cons_2; [..|done]; (apply (bool_decide_unpack _); by vm_compute).
  - by apply plain_ascii.
  - done.
  - apply (reading_words [⌜"cmake"⌝; ⌜"--preset"⌝; cmake_cache_dir b]); [done|].
    repeat apply Forall_cons_2; [..|done|done]; (split; [done|apply (bool_decide_unpack _); by vm_compute]).
Qed.

Lemma cmake_cmd_args sc msvc b output a : plain (cmake_cache_dir b) -> plain a -> Forall ascii7 a -> plain output ->
  exists l n, cmake_cmd sc msvc b output (Some a) = Ok l /\
    reading l = Some [redirected (Command [n] []) output false; redirected (Command [⌜"echo"⌝; ⌜"Running"⌝; ⌜"CMake..."⌝] []) output true;
      redirected (Command [n] []) output true;
      redirected (Command [⌜"cmake"⌝; ⌜"--preset"⌝; cmake_cache_dir b ++ ⌜"-D"⌝; ⌜"EXEC_ARGS"⌝; a] []) output true].
Proof.
  intros Hp Ha H7 Ho. unfold cmake_cmd.
  destruct (with_preamble_reading sc msvc [⌜"Running"⌝; ⌜"CMake..."⌝] ((⌜"cmake --preset "⌝ ++ cmake_cache_dir b) ++ ⌜"-D EXEC_ARGS "⌝ ++ a) output false []
    (Command [⌜"cmake"⌝; ⌜"--preset"⌝; cmake_cache_dir b ++ ⌜"-D"⌝; ⌜"EXEC_ARGS"⌝; a] [])) as (l&El&HR); [..|eexists l, _; exact (conj El HR)].
  - repeat apply Forall_cons_2; [..|done]; (split; [done|apply (bool_decide_unpack _); by vm_compute]).
  - repeat apply Forall_cons_2; [..|done]; (apply (bool_decide_unpack _); by vm_compute).
  - rewrite app_assoc. by apply plain_ascii.
  - done.
  - replace ((⌜"cmake --preset "⌝ ++ cmake_cache_dir b) ++ ⌜"-D EXEC_ARGS "⌝ ++ a)
      with (join [blank] [⌜"cmake"⌝; ⌜"--preset"⌝; cmake_cache_dir b ++ ⌜"-D"⌝; ⌜"EXEC_ARGS"⌝; a]).
    2: { cbn. by rewrite <-!app_assoc. }
    apply reading_words; [done|].
    repeat apply Forall_cons_2; [..|done|done]; try (split; [done|apply (bool_decide_unpack _); by vm_compute]).
    destruct Hp as [Hne Hp]. split; [by destruct (cmake_cache_dir b)|]. apply Forall_app. split; [done|].
    apply (bool_decide_unpack _); by vm_compute.
Qed.

Lemma without_output sc msvc preamble cmd app : with_output sc cmd [] app = Ok cmd /\
  with_preamble sc msvc preamble cmd [] app =
    Ok (match preamble with
        | [] => cmd
        | _ => let newline := if msvc then ⌜"echo/"⌝ else ⌜"echo"⌝ in
               and_then (newline ++ ⌜"&&echo "⌝ ++ preamble ++ ⌜"&&"⌝ ++ newline) cmd
        end).
Proof.
  split; [done|]. destruct preamble as [|c l]; [unfold with_preamble; cbn; by rewrite and_then_empty_l|].
  destruct msvc; destruct cmd; cbn; by rewrite ?app_nil_r, <-?app_assoc.
Qed.
