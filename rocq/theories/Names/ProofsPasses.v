(** The passes on names which are flat lists of words. *)
From Coq Require Import Ascii String.
From stdpp Require Import list.
From Verif.Base Require Import Outcome Order ListLemmas.
From Verif.Text Require Import Model Spec Proofs ProofsCase.
From Verif.Names Require Import Model Spec SpecAgree Proofs ProofsLiterals ProofsAgree.
Local Open Scope res_scope.
Local Notation "⌜ s ⌝" := (list_ascii_of_string s%string).
Local Notation length := List.length.

(** ** Occurrences *)
Definition skips (from w rest : text) : Prop := forall i, i < length w -> ~ occurs_at from (w ++ rest) i.

Lemma occurs_at_lookup from l i j c : occurs_at from l i -> from !! j = Some c -> l !! (i + j) = Some c.
Proof.
  intros (pre&post&->&<-) H. rewrite lookup_app_r by lia. replace (length pre + j - length pre) with j by lia.
  by apply lookup_app_l_Some.
Qed.

Lemma skips_first c f w rest : c ∉ w -> skips (c :: f) w rest.
Proof.
  intros Hc i Hi H. apply (occurs_at_lookup _ _ _ 0 c) in H; [|done]. rewrite Nat.add_0_r, lookup_app_l in H by done.
  apply Hc. by eapply elem_of_list_lookup_2.
Qed.

Lemma skips_word from w rest : ~ occurs from w -> (forall d, head rest = Some d -> d ∉ from) -> skips from w rest.
Proof.
  intros Hn Hd i Hi (pre&post&E&Hp). destruct (decide (i + length from <= length w)) as [Hle|Hgt].
  - apply Hn. exists i. exists pre, (take (length w - (i + length from)) post). split; [|done].
    apply (f_equal (take (length w))) in E. rewrite take_app in E. rewrite E at 1. rewrite app_assoc, take_app_ge.
    + rewrite <-app_assoc, app_length, Hp. done.
    + rewrite app_length. lia.
  - destruct (from !! (length w - i)) as [c|] eqn:Ec; [|apply lookup_ge_None in Ec; lia].
    assert ((w ++ rest) !! length w = Some c) as Hc.
    { rewrite E. replace (length w) with (i + (length w - i)) by lia. eapply occurs_at_lookup; [|exact Ec]. by exists pre, post. }
    rewrite lookup_app_r, Nat.sub_diag in Hc by lia. apply (Hd c).
    + by destruct rest.
    + by eapply elem_of_list_lookup_2.
Qed.

Definition clashes (from w : text) : bool :=
  forallb (fun i => existsb (fun j => match from !! j, w !! (i + j) with Some a, Some b => bool_decide (a <> b) | _, _ => false end)
    (seq 0 (length from))) (seq 0 (length w)).
Lemma skips_clash from w rest : clashes from w = true -> skips from w rest.
Proof.
  intros H i Hi Ho. unfold clashes in H. rewrite forallb_forall in H. assert (In i (seq 0 (length w))) as Hin by (apply in_seq; lia). specialize (H i Hin).
  apply existsb_exists in H as (j&_&H). destruct (from !! j) as [a|] eqn:Ea; [|done]. destruct (w !! (i + j)) as [b|] eqn:Eb; [|done].
  apply bool_decide_eq_true in H. apply H. eapply occurs_at_lookup in Ho; [|exact Ea].
  rewrite lookup_app_l in Ho by (by eapply lookup_lt_Some). congruence.
Qed.

Lemma skips_occurs from w rest : skips from w rest -> ~ occurs from rest -> ~ occurs from (w ++ rest).
Proof.
  intros Hs Hr [i Hi]. destruct (decide (i < length w)) as [Hlt|Hge]; [by apply (Hs i)|]. apply Hr. exists (i - length w).
  replace i with (length w + (i - length w)) in Hi by lia. by apply (proj1 (occurs_at_app _ _ _ _)) in Hi.
Qed.

Lemma skips_tail from w rest c : skips from (c :: w) rest -> skips from w rest.
Proof. intros H i Hi Ho. apply (H (S i)); [cbn; lia|]. by apply occurs_at_S. Qed.

Lemma skips_app from w v rest : skips from w (v ++ rest) -> skips from v rest -> skips from (w ++ v) rest.
Proof.
  intros H1 H2 i Hi Ho. rewrite <-app_assoc in Ho. destruct (decide (i < length w)) as [Hlt|Hge]; [by apply (H1 i)|].
  rewrite app_length in Hi. apply (H2 (i - length w)); [lia|].
  replace i with (length w + (i - length w)) in Ho by lia. by apply (proj1 (occurs_at_app _ _ _ _)) in Ho.
Qed.

Lemma not_occurs_char p l c : c ∈ p -> c ∉ l -> ~ occurs p l.
Proof.
  intros Hp Hl [i Hi]. apply elem_of_list_lookup in Hp as [j Hj]. eapply occurs_at_lookup in Hi; [|exact Hj].
  apply Hl. by eapply elem_of_list_lookup_2.
Qed.

(** ** Separators *)
Definition delims : text := ⌜"<>, "⌝.
Definition starts (rest : text) : Prop := forall d, head rest = Some d -> d ∈ ⌜"<>,"⌝.
Definition cl_ok (cl : nat -> text) : Prop := (forall k, Forall (fun c => c ∈ ⌜"> "⌝) (cl k)) /\ cl 0 = [] /\ forall k, head (cl (S k)) = Some ">"%char.
Definition comma_ok (comma : text) : Prop := comma = ⌜","⌝ \/ comma = ⌜", "⌝.

Lemma tight_ok : cl_ok tight.
Proof. split; [|done]. intros k. induction k; [constructor|]. apply Forall_cons_2; [|done]. apply (bool_decide_unpack _). by vm_compute. Qed.
Lemma spaced_ok : cl_ok spaced.
Proof.
  split; [|split; [done|by intros []]]. intros k. induction k as [|k IH]; [constructor|]. rewrite spaced_S. apply Forall_app. split; [done|].
  destruct k; apply (bool_decide_unpack _); by vm_compute.
Qed.

Lemma delims_1 c : c ∈ ⌜"> "⌝ -> c ∈ delims.
Proof. unfold delims. cbn. rewrite !elem_of_cons. tauto. Qed.
Lemma delims_2 c : c ∈ ⌜"<>,"⌝ -> c ∈ delims.
Proof. unfold delims. cbn. rewrite !elem_of_cons. tauto. Qed.

Section passes.
  Context (cl : nat -> text) (Hcl : cl_ok cl) (comma : text) (Hcomma : comma_ok comma).

  Lemma sep_delims s : Forall (fun c => c ∈ delims) (sep_text cl comma s).
  Proof.
    destruct s as [|k]; cbn [sep_text].
    - apply (bool_decide_unpack _). by vm_compute.
    - apply Forall_app. split.
      + eapply Forall_impl; [apply Hcl|]. intros c. apply delims_1.
      + destruct Hcomma as [-> | ->]; apply (bool_decide_unpack _); by vm_compute.
  Qed.
  Lemma cl_delims k : Forall (fun c => c ∈ delims) (cl k).
  Proof. eapply Forall_impl; [apply Hcl|]. intros c. apply delims_1. Qed.

  Lemma starts_sep s r : starts (sep_text cl comma s ++ r).
  Proof.
    intros d. destruct s as [|k]; cbn [sep_text].
    - cbn. intros [= <-]. apply (bool_decide_unpack _). by vm_compute.
    - rewrite <-app_assoc. destruct Hcl as (_&H0&HS). destruct k as [|k].
      + rewrite H0. destruct Hcomma as [-> | ->]; cbn; intros [= <-]; apply (bool_decide_unpack _); by vm_compute.
      + specialize (HS k). destruct (cl (S k)); [done|]. cbn in HS |- *. injection HS as ->. intros [= <-].
        apply (bool_decide_unpack _). by vm_compute.
  Qed.

  Lemma starts_rest w l t : starts (rest_text w cl comma l t).
  Proof.
    unfold rest_text. destruct l as [|[s j] l]; cbn [map concat fst snd].
    - intros d. cbn [app]. destruct Hcl as (_&H0&HS). destruct t as [|t]; [by rewrite H0|]. rewrite HS. intros [= <-].
      apply (bool_decide_unpack _). by vm_compute.
    - rewrite <-!app_assoc. apply starts_sep.
  Qed.

  Definition closed (i : item) (rest : text) : Prop := is_id i \/ exists d r, rest = d :: r /\ (d = ","%char \/ d = ">"%char).

  Lemma flat_closed w i l t : flat_ok i l t -> closed i (rest_text w cl comma l t).
  Proof.
    unfold rest_text. destruct Hcl as (_&H0&HS). destruct l as [|[s j] l]; cbn [flat_ok map concat fst snd app].
    - intros [H|H]; [by left|]. right. destruct t as [|t]; [lia|]. specialize (HS t). destruct (cl (S t)) as [|d r]; [done|].
      injection HS as ->. by eexists _, _; split; [reflexivity|right].
    - intros [H _]. destruct s as [|k]; [left; by apply H|]. right. cbn [sep_text]. destruct k as [|k].
      + rewrite H0. destruct Hcomma as [-> | ->]; eexists _, _; (split; [reflexivity|by left]).
      + specialize (HS k). destruct (cl (S k)) as [|d r]; [done|]. injection HS as ->. eexists _, _. split; [reflexivity|by right].
  Qed.

  (** *** Patterns which do not occur *)
  Lemma rest_free p w l t : p <> [] -> Forall (fun c => c ∉ delims) p -> Forall (fun si => ~ occurs p (w si.2)) l ->
    ~ occurs p (rest_text w cl comma l t).
  Proof.
    intros Hne Hp. destruct p as [|c p]; [done|]. pose proof Hp as Hp'. rewrite Forall_cons in Hp. destruct Hp as [Hc Hp].
    assert (forall v, Forall (fun c => c ∈ delims) v -> forall r, skips (c :: p) v r) as HD.
    { intros v Hv r. apply skips_first. intros Hin. apply Hc. by apply (proj1 (Forall_forall _ _) Hv). }
    intros H. induction H as [|[s j] l Hj _ IH]; unfold rest_text; cbn [map concat fst snd].
    - cbn [app]. rewrite <-(app_nil_r (cl t)). apply skips_occurs; [apply HD, cl_delims|]. intros [i Hi]. by apply occurs_at_nil_r in Hi as [_ ?].
    - rewrite <-!app_assoc. apply skips_occurs; [apply HD, sep_delims|]. apply skips_occurs; [|exact IH].
      apply skips_word; [done|]. intros d Hd. apply (starts_rest w l t) in Hd. intros Hin.
      apply (proj1 (Forall_forall _ _) Hp') in Hin. apply Hin. by apply delims_2.
  Qed.

  Lemma text_free p n w l t : p <> [] -> Forall (fun c => c ∉ delims) p -> ~ occurs p n -> Forall (fun si => ~ occurs p (w si.2)) l ->
    ~ occurs p (n ++ rest_text w cl comma l t).
  Proof.
    intros Hne Hp Hn Hl. apply skips_occurs; [|by apply rest_free]. apply skips_word; [done|].
    intros d Hd Hin. apply (starts_rest w l t) in Hd. apply (proj1 (Forall_forall _ _) Hp) in Hin. apply Hin. by apply delims_2.
  Qed.

  Lemma text_chars (c : char) n w l t : c ∉ delims -> c ∉ n -> Forall (fun si => c ∉ w si.2) l -> c ∉ n ++ rest_text w cl comma l t.
  Proof.
    intros Hc Hn Hl Hin. apply (proj2 (occurs_char c _)) in Hin. revert Hin.
    apply text_free; [done|by apply Forall_singleton| |].
    - intros H. by apply occurs_char in H.
    - eapply Forall_impl; [exact Hl|]. intros si H H'. by apply occurs_char in H'.
  Qed.

  (** *** Substitutions depending on the neighbours *)
  Context (lp rp : char -> bool) (c : char) (f to : text).
  Local Notation from := (c :: f).
  Context (Hc : c ∉ delims) (Hcf : c ∉ f).

  Lemma rif_word w : forall prev rest out, skips from w rest ->
    replaced_if lp rp from to (last_or prev w) rest out -> replaced_if lp rp from to prev (w ++ rest) (w ++ out).
  Proof using.
    clear. induction w as [|x w IH]; intros prev rest out Hs H; [done|]. cbn [app]. apply replaced_if_cons.
    - intros Ho. apply (Hs 0); [cbn; lia|done].
    - apply IH; [by eapply skips_tail|]. change (x :: w) with ([x] ++ w) in H. by rewrite <-last_or_app in H.
  Qed.

  Lemma rif_hit v prev rest out : lp prev = true -> rp (head_or zero (v ++ rest)) = true -> skips from v rest ->
    replaced_if lp rp from to (last_or prev (from ++ v)) rest out ->
    replaced_if lp rp from to prev ((from ++ v) ++ rest) ((to ++ v) ++ out).
  Proof using.
    clear. intros H1 H2 H3 H4. rewrite <-!app_assoc.
    apply (replaced_if_yes lp rp from to prev [] (v ++ rest) (v ++ out)); [|done|done|].
    - split; [exists [], (v ++ rest); done|]. intros j _. cbn. lia.
    - apply rif_word; [done|]. by rewrite last_or_app.
  Qed.

  Definition lone (l : text) : Prop := forall i, occurs_at from l i -> ~ occurs_at from l (i + length from).

  Lemma lone_word w rest : skips from w rest -> lone rest -> lone (w ++ rest).
  Proof using.
    clear. intros Hs Hl i Hi Hj. destruct (decide (i < length w)) as [Hlt|Hge]; [by apply (Hs i)|].
    replace i with (length w + (i - length w)) in Hi by lia. apply (proj1 (occurs_at_app _ _ _ _)) in Hi. apply (Hl _ Hi).
    replace (i + length from) with (length w + (i - length w + length from)) in Hj by lia. by apply (proj1 (occurs_at_app _ _ _ _)) in Hj.
  Qed.

  Lemma lone_hit v rest : ~ occurs_at from (v ++ rest) 0 -> skips from v rest -> lone rest -> lone ((from ++ v) ++ rest).
  Proof using Hcf.
    clear -Hcf. intros H0 Hs Hl. rewrite <-app_assoc. intros i Hi Hj. destruct (decide (i < length from)) as [Hlt|Hge].
    - destruct i as [|i].
      + rewrite <-(Nat.add_0_r (0 + length from)) in Hj. cbn [Nat.add] in Hj. apply (proj1 (occurs_at_app from from (v ++ rest) 0)) in Hj. done.
      + cbn [app] in Hi. apply (proj1 (occurs_at_S _ _ _ _)) in Hi. cbn [length] in Hlt.
        apply (skips_first c f f (v ++ rest) Hcf i); [lia|done].
    - assert (lone (v ++ rest)) as HL by (by apply lone_word).
      replace i with (length from + (i - length from)) in Hi by lia. apply (proj1 (occurs_at_app _ _ _ _)) in Hi. apply (HL _ Hi).
      replace (i + length from) with (length from + (i - length from + length from)) in Hj by lia. by apply (proj1 (occurs_at_app _ _ _ _)) in Hj.
  Qed.

  Lemma lone_apart l : lone l -> apart from l.
  Proof using Hcf.
    clear -Hcf. intros Hl i j Hi Hj Hlt. destruct (decide (j <= i + length from)) as [Hle|]; [|lia]. exfalso.
    destruct (decide (j = i + length from)) as [->|Hne]; [by apply (Hl i)|].
    pose proof (occurs_at_lookup _ _ _ 0 c Hj eq_refl) as H1. rewrite Nat.add_0_r in H1.
    destruct (from !! (j - i)) as [d|] eqn:Ed; [|apply lookup_ge_None in Ed; lia].
    pose proof (occurs_at_lookup _ _ _ _ d Hi Ed) as H2. replace (i + (j - i)) with j in H2 by lia.
    assert (d = c) as -> by congruence. destruct (j - i) as [|k] eqn:E; [lia|]. cbn in Ed. apply Hcf. by eapply elem_of_list_lookup_2.
  Qed.

  Definition before_item (prev : char) : Prop := prev = "<"%char \/ last comma = Some prev.

  Lemma sep_last s prev : before_item (last_or prev (sep_text cl comma s)).
  Proof using Hcomma.
    clear -Hcomma. destruct s as [|k]; cbn [sep_text]; [by left|]. right. unfold last_or. rewrite last_app.
    destruct Hcomma as [-> | ->]; done.
  Qed.

  Lemma sep_skips s rest : skips from (sep_text cl comma s) rest.
  Proof. apply skips_first. intros Hin. apply Hc. exact (proj1 (Forall_forall _ _) (sep_delims s) c Hin). Qed.
  Lemma cl_skips k rest : skips from (cl k) rest.
  Proof. apply skips_first. intros Hin. apply Hc. exact (proj1 (Forall_forall _ _) (cl_delims k) c Hin). Qed.

  Lemma rif_rest w w' l : forall i t prev,
    (forall j prev rest out, j ∈ map snd l -> before_item prev -> starts rest -> closed j rest ->
       replaced_if lp rp from to (last_or prev (w j)) rest out -> replaced_if lp rp from to prev (w j ++ rest) (w' j ++ out)) ->
    flat_ok i l t -> replaced_if lp rp from to prev (rest_text w cl comma l t) (rest_text w' cl comma l t).
  Proof.
    induction l as [|[s j] l IH]; intros i t prev Hstep Hok; unfold rest_text; cbn [map concat fst snd].
    - cbn [app]. rewrite <-(app_nil_r (cl t)). apply rif_word; [apply cl_skips|]. apply replaced_if_none.
      intros [k Hk]. by apply occurs_at_nil_r in Hk as [_ ?].
    - rewrite <-!app_assoc. apply rif_word; [apply sep_skips|]. cbn [flat_ok] in Hok. destruct Hok as [_ Hok].
      apply Hstep; [by left|apply sep_last|apply (starts_rest w l t)|by apply flat_closed|].
      apply (IH j); [|done]. intros k prev' rest out Hk. apply Hstep. by right.
  Qed.

  Lemma lone_rest w l : forall t,
    (forall j rest, j ∈ map snd l -> starts rest -> lone rest -> lone (w j ++ rest)) -> lone (rest_text w cl comma l t).
  Proof.
    induction l as [|[s j] l IH]; intros t Hstep; unfold rest_text; cbn [map concat fst snd].
    - cbn [app]. rewrite <-(app_nil_r (cl t)). apply lone_word; [apply cl_skips|]. intros i Hi. by apply occurs_at_nil_r in Hi as [_ ?].
    - rewrite <-!app_assoc. apply lone_word; [apply sep_skips|]. apply Hstep; [by left|apply (starts_rest w l t)|].
      apply IH. intros k rest Hk. apply Hstep. by right.
  Qed.
End passes.

Lemma subst_between_flat cl comma c f lft rgt to n w w' i l t : cl_ok cl -> comma_ok comma -> c ∉ delims -> c ∉ f ->
  skips (c :: f) n (rest_text w cl comma l t) ->
  (forall j prev rest out, j ∈ map snd l -> before_item comma prev -> starts rest -> closed j rest ->
     replaced_if (any_of lft) (any_of rgt) (c :: f) to (last_or prev (w j)) rest out ->
     replaced_if (any_of lft) (any_of rgt) (c :: f) to prev (w j ++ rest) (w' j ++ out)) ->
  (forall j rest, j ∈ map snd l -> starts rest -> lone c f rest -> lone c f (w j ++ rest)) ->
  flat_ok i l t ->
  subst_between (n ++ rest_text w cl comma l t) lft (c :: f) rgt to = Ok (n ++ rest_text w' cl comma l t).
Proof.
  intros Hcl Hcomma Hc Hcf Hn H1 H2 Hok. unfold subst_between, replace_delimited.
  destruct (replace_if_apart (any_of lft) (any_of rgt) (c :: f) to (n ++ rest_text w cl comma l t) (2 + length (n ++ rest_text w cl comma l t)))
    as (out&E&HR); [done|lia| |].
  - apply lone_apart; [done|]. apply lone_word; [done|]. by apply lone_rest.
  - rewrite E. f_equal. assert (c :: f <> []) as Hne by done. apply (replaced_if_fun _ _ _ _ _ _ _ _ Hne HR). apply rif_word; [done|]. by eapply rif_rest.
Qed.

Lemma subst_all_free l from to : from <> [] -> ~ occurs from l -> subst_all l from to = Ok l.
Proof. intros Hne H. apply replace_all_unique; [done|lia|]. by constructor. Qed.

(** ** The blanks between closing brackets *)
Lemma spread_word w r : ">"%char ∉ w -> spread ">" " " (w ++ r) = w ++ spread ">" " " r.
Proof.
  induction w as [|x w IH]; intros H; [done|]. rewrite not_elem_of_cons in H. destruct H as [Hx H]. cbn [app spread].
  rewrite IH by done. f_equal. destruct (w ++ r); [done|]. rewrite decide_False; [done|]. intros [-> _]. done.
Qed.

Lemma spread_tight k r : head r <> Some ">"%char -> spread ">" " " (tight k ++ r) = spaced k ++ spread ">" " " r.
Proof.
  intros Hr. induction k as [|k IH]; [done|]. change (tight (S k) ++ r) with (">"%char :: (tight k ++ r)). cbn [spread]. rewrite IH.
  destruct k as [|k].
  - cbn [tight repeat app]. destruct r as [|y r]; [done|]. rewrite decide_False; [done|]. intros [_ ->]. done.
  - change (tight (S k) ++ r) with (">"%char :: (tight k ++ r)). cbv beta iota. rewrite decide_True by done. done.
Qed.

Lemma spread_rest w l t : Forall (fun si => ">"%char ∉ w si.2 /\ w si.2 <> []) l ->
  spread ">" " " (rest_text w tight ⌜", "⌝ l t) = rest_text w spaced ⌜", "⌝ l t.
Proof.
  intros H. induction H as [|[s j] l [Hj Hne] _ IH]; unfold rest_text; cbn [map concat fst snd].
  - cbn [app]. rewrite <-(app_nil_r (tight t)). rewrite spread_tight by done. cbn. by rewrite app_nil_r.
  - rewrite <-!app_assoc. cbn [snd] in Hj, Hne.
    assert (spread ">" " " (w j ++ rest_text w tight ⌜", "⌝ l t) = w j ++ rest_text w spaced ⌜", "⌝ l t) as E.
    { by rewrite spread_word, IH. }
    unfold rest_text in E. destruct s as [|k]; cbn [sep_text].
    + rewrite (spread_word ⌜"<"⌝); [by rewrite E|]. apply (bool_decide_unpack _). by vm_compute.
    + rewrite <-!app_assoc. rewrite spread_tight by done. f_equal. rewrite (spread_word ⌜", "⌝); [by rewrite E|].
      apply (bool_decide_unpack _). by vm_compute.
Qed.

(** ** Commas *)
Lemma subst_char_rest w l t : Forall (fun si => ","%char ∉ w si.2) l ->
  subst_char "," ⌜", "⌝ (rest_text w spaced ⌜","⌝ l t) = rest_text w spaced ⌜", "⌝ l t.
Proof.
  assert (forall k, ","%char ∉ spaced k) as Hs.
  { intros k Hin. pose proof (proj1 (Forall_forall _ _) (proj1 spaced_ok k) _ Hin) as H. revert H. apply (bool_decide_unpack _). by vm_compute. }
  intros H. induction H as [|[s j] l Hj _ IH]; unfold rest_text; cbn [map concat fst snd].
  - cbn [app]. by apply subst_char_none.
  - rewrite <-!app_assoc, !subst_char_app. unfold rest_text in IH. rewrite subst_char_app in IH. cbn [snd] in Hj.
    rewrite (subst_char_none _ _ (w j)) by done. rewrite IH. f_equal. destruct s as [|k]; cbn [sep_text]; [done|].
    rewrite subst_char_app, (subst_char_none _ _ (spaced k)) by done. done.
Qed.

Lemma no_blank_comma n w l t : " "%char ∉ n -> Forall (fun si => " "%char ∉ w si.2 /\ w si.2 <> [] /\ head (w si.2) <> Some ","%char) l ->
  ~ occurs ⌜" ,"⌝ (n ++ rest_text w spaced ⌜", "⌝ l t).
Proof.
  intros Hn Hl.
  assert (forall k r, ~ occurs ⌜" ,"⌝ r -> ~ occurs ⌜" ,"⌝ (spaced k ++ r)) as Hs.
  { intros k r Hr. induction k as [|k IH]; [done|]. destruct k as [|k].
    - apply (skips_occurs _ ⌜">"⌝); [|done]. apply skips_clash. by vm_compute.
    - change (spaced (S (S k)) ++ r) with ([">"%char; " "%char] ++ spaced (S k) ++ r).
      apply skips_occurs; [|done].
      assert (exists r', spaced (S k) ++ r = ">"%char :: r') as [r' ->] by (destruct k; eexists; reflexivity).
      intros i Hi Ho. cbn in Hi. destruct i as [|[|i]]; [| |lia].
      + apply (occurs_at_lookup _ _ _ 0 " "%char) in Ho; [|done]. discriminate Ho.
      + apply (occurs_at_lookup _ _ _ 1 ","%char) in Ho; [|done]. discriminate Ho. }
  apply skips_occurs; [by apply skips_first|].
  induction Hl as [|[s j] l (H1&H2&H3) _ IH]; unfold rest_text; cbn [map concat fst snd].
  - cbn [app]. rewrite <-(app_nil_r (spaced t)). apply Hs. intros [i Hi]. by apply occurs_at_nil_r in Hi as [_ ?].
  - rewrite <-!app_assoc. cbn [snd] in H1, H2, H3.
    assert (~ occurs ⌜" ,"⌝ (w j ++ rest_text w spaced ⌜", "⌝ l t)) as HJ.
    { apply skips_occurs; [by apply skips_first|done]. }
    unfold rest_text in HJ. destruct s as [|k]; cbn [sep_text].
    + apply skips_occurs; [|done]. apply skips_clash. by vm_compute.
    + rewrite <-app_assoc. apply Hs. apply skips_occurs; [|done]. destruct (w j) as [|y v]; [done|].
      intros i Hi Ho. cbn in Hi. destruct i as [|[|i]]; [| |lia].
      * apply (occurs_at_lookup _ _ _ 0 " "%char) in Ho; [|done]. discriminate Ho.
      * apply (occurs_at_lookup _ _ _ 1 ","%char) in Ho; [|done]. cbn in Ho. injection Ho as ->. done.
Qed.
