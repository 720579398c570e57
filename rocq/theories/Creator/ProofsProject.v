(** Proofs about the name of a project. *)
From Coq Require Import Ascii String.
From stdpp Require Import list.
From Verif.Base Require Import Outcome ListLemmas.
From Verif.Text Require Import Model Spec Proofs.
From Verif.Creator Require Import Model Spec.
Local Open Scope res_scope.
Local Notation "⌜ s ⌝" := (list_ascii_of_string s%string).
Local Notation length := List.length.

(** ** A word whose first letter does not occur again in it *)
Section words.
  Context (c : char) (w : text) (Hc : c ∉ w).

  Lemma word_at l j : occurs_at (c :: w) l j -> l !! j = Some c /\ forall i, i < length w -> l !! (j + S i) = w !! i.
  Proof.
    intros (a & b & -> & <-). split; [by apply list_lookup_middle|]. intros i Hi. rewrite lookup_app_r by lia. replace (length a + S i - length a) with (S i) by lia.
    cbn [app lookup]. by apply lookup_app_l.
  Qed.
  Lemma occurs_in from l r j : j + length from <= length l -> occurs_at from (l ++ r) j -> occurs from l.
  Proof.
    intros Hj (a & b & E & Hl). exists j, a, (take (length l - length a - length from) b). split; [|done].
    assert (l = take (length l) (a ++ from ++ b)) as E' by (by rewrite <-E, take_app). rewrite E' at 1. rewrite !take_app_ge by lia. done.
  Qed.
  Lemma occurs_behind from l r : occurs from r -> occurs from (l ++ r).
  Proof. intros (j & a & b & -> & <-). exists (length (l ++ a)), (l ++ a), b. by rewrite <-app_assoc. Qed.
  Lemma occurs_front from l r : occurs from l -> occurs from (l ++ r).
  Proof. intros (j & a & b & -> & <-). exists (length a), a, (b ++ r). by rewrite <-!app_assoc. Qed.

  (** Nothing runs into the word, or into one with another first letter. *)
  Lemma runs_into d s rest j : d ∉ w -> j < length s -> occurs_at (c :: w) (s ++ d :: rest) j -> occurs (c :: w) s.
  Proof.
    intros Hd Hj H. destruct (decide (j + length (c :: w) <= length s)) as [Hl|Hl]; [by eapply occurs_in|]. exfalso. cbn [length] in Hl.
    destruct (word_at _ _ H) as [_ Hw]. specialize (Hw (length s - j - 1) ltac:(lia)). replace (j + S (length s - j - 1)) with (length s) in Hw by lia.
    rewrite list_lookup_middle in Hw by done. apply Hd. eapply elem_of_list_lookup_2. by symmetry.
  Qed.
  (** Nothing begins in it. *)
  Lemma begins_in d l j : d <> c -> j < length (d :: w) -> ~ occurs_at (c :: w) ((d :: w) ++ l) j.
  Proof using Hc.
    intros Hd Hj H. destruct (word_at _ _ H) as [Hw _]. rewrite lookup_app_l in Hw by done. destruct j as [|j]; cbn in Hw; [congruence|].
    apply Hc. eapply elem_of_list_lookup_2. exact Hw.
  Qed.

  Fixpoint joined (by_ s : text) (ss : list text) : text := match ss with [] => s | t :: ss' => s ++ by_ ++ joined by_ t ss' end.
  Lemma joined_replaced to ss : forall s, Forall (fun t => ~ occurs (c :: w) t) (s :: ss) -> replaced (c :: w) to (joined (c :: w) s ss) (joined to s ss).
  Proof using Hc.
    induction ss as [|t ss IH]; intros s [Hs Hss]%Forall_cons; cbn [joined]; [by apply replaced_none|].
    apply replaced_step; [|by apply IH]. split; [by exists s, (joined (c :: w) t ss)|]. intros j Hj. destruct (decide (length s <= j)) as [|Hl]; [done|].
    destruct Hs. by apply (runs_into c s (w ++ joined (c :: w) t ss) j); [|lia|].
  Qed.
End words.

Section project.
  Local Notation w := ⌜"yProject"⌝.
  Local Notation M_ := "M"%char.
  Local Notation m_ := "m"%char.
  Lemma M_not : M_ ∉ w. Proof. apply (bool_decide_unpack _). by vm_compute. Qed.
  Lemma m_not : m_ ∉ w. Proof. apply (bool_decide_unpack _). by vm_compute. Qed.

  (** The other way of cutting *)
  Fixpoint between_big (ps : list (text * bool)) (end_ : text) : text * list text :=
    match ps with
    | [] => (end_, [])
    | (seg, b) :: ps' => let (s, ss) := between_big ps' end_ in if b then (seg, s :: ss) else (seg ++ (m_ :: w) ++ s, ss)
    end.
  Lemma joined_big ps end_ big : named (fun b => if b then big else m_ :: w) ps end_ = joined big (between_big ps end_).1 (between_big ps end_).2.
  Proof.
    induction ps as [|[seg b] ps IH]; [done|]. cbn [named between_big]. rewrite IH. destruct (between_big ps end_) as [s ss]. destruct b; cbn [fst snd joined]; [done|].
    destruct ss as [|t ss]; cbn [joined]; rewrite <-?app_assoc; done.
  Qed.
  Lemma joined_small ps end_ big small : named (fun b => if b then big else small) ps end_ = joined small (between big ps end_).1 (between big ps end_).2.
  Proof.
    induction ps as [|[seg b] ps IH]; [done|]. cbn [named between]. rewrite IH. destruct (between big ps end_) as [s ss]. destruct b; cbn [fst snd joined]; [|done].
    destruct ss as [|t ss]; cbn [joined]; rewrite <-?app_assoc; done.
  Qed.
  Lemma no_big ps end_ : Forall (fun p => ~ occurs (M_ :: w) (fst p)) ps -> ~ occurs (M_ :: w) end_ ->
    Forall (fun t => ~ occurs (M_ :: w) t) ((between_big ps end_).1 :: (between_big ps end_).2).
  Proof.
    intros Hps He. induction Hps as [|[seg b] ps Hs _ IH]; [by apply Forall_cons_2; [|apply Forall_nil_2]|]. cbn [between_big fst] in *. destruct (between_big ps end_) as [s ss]. cbn [fst snd] in IH.
    apply Forall_cons in IH as [Hs' Hss]. destruct b; cbn [fst snd]; [by repeat apply Forall_cons_2|]. apply Forall_cons_2; [|done]. intros [j Hj].
    destruct (decide (j < length seg)) as [Hl|Hl]; [by apply Hs, (runs_into M_ w m_ seg (w ++ s) j m_not)|].
    assert (occurs_at (M_ :: w) ((m_ :: w) ++ s) (j - length seg)) as H by (apply (occurs_at_app _ seg); by replace (length seg + (j - length seg)) with j by lia).
    destruct (decide (j - length seg < length (m_ :: w))) as [Hl'|Hl']; [by apply (begins_in M_ w M_not m_ s (j - length seg))|].
    apply Hs'. exists (j - length seg - length (m_ :: w)). apply (occurs_at_app _ (m_ :: w)).
    by replace (length (m_ :: w) + (j - length seg - length (m_ :: w))) with (j - length seg) by lia.
  Qed.
End project.

Lemma named_ext f g ps end_ : (forall b, f b = g b) -> named f ps end_ = named g ps end_.
Proof. intros H. induction ps as [|[s b] ps IH]; [done|]. cbn. by rewrite H, IH. Qed.

Lemma project_ok ps end_ name :
  let proj := subst_char " "%char ⌜"_"⌝ name in
  Forall (fun p => ~ occurs ⌜"MyProject"⌝ (fst p)) ps -> ~ occurs ⌜"MyProject"⌝ end_ ->
  Forall (fun s => ~ occurs ⌜"myProject"⌝ s) (fst (between proj ps end_) :: snd (between proj ps end_)) ->
  set_proj_name (named placeholder ps end_) name = Ok (named (fun b => if b then proj else uncapitalize proj) ps end_).
Proof.
  intros proj Hps He Hsmall. unfold set_proj_name. unfold subst at 1. change ⌜" "⌝ with [" "%char]. rewrite replace_all_char by lia. cbn [rbind]. fold proj.
  unfold subst at 1. rewrite (replace_all_unique _ _ _ _ (named (fun b => if b then proj else ⌜"myProject"⌝) ps end_)); [|done|lia|].
  2:{ change placeholder with (fun b : bool => if b then ⌜"MyProject"⌝ else ⌜"myProject"⌝). change ⌜"myProject"⌝ with ("m"%char :: ⌜"yProject"⌝). rewrite !joined_big.
      apply (joined_replaced "M"%char ⌜"yProject"⌝ M_not). by apply no_big. }
  cbn [rbind]. unfold subst. apply replace_all_unique; [done|lia|]. rewrite !joined_small. by apply (joined_replaced "m"%char ⌜"yProject"⌝ m_not).
Qed.
