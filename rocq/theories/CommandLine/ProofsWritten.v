(** Lines written as intended are understood. *)
From Coq Require Import Ascii.
From stdpp Require Import list.
From Verif.Base Require Import Outcome ListLemmas.
From Verif.Text Require Import Model.
From Verif.CommandLine Require Import Model Spec SpecWritten ProofsParse ProofsLine ProofsMain.

Section proofs.
  Context {E : Type}.
  Implicit Types os : list (opt E).

  Section ind.
    Context (P : written E -> Prop) (H : forall o w args sub, Forall P sub -> P (Written o w args sub)).
    Fixpoint written_forall (u : written E) : P u :=
      match u with
      | Written o w args sub =>
          H o w args sub ((fix go l : Forall P l := match l with [] => Forall_nil_2 P | u :: l => Forall_cons_2 P u l (written_forall u) (go l) end) sub)
      end.
  End ind.

  (** What follows begins with one of the words [l] *)
  Definition follows (l rest : list text) : Prop := match rest with [] => True | w :: _ => w ∈ l /\ w <> [] end.

  Lemma spelt_spellings os o (w : text) : first_of (fun o => spelt o w) os o -> w ∈ spellings os.
  Proof.
    intros H. apply first_of_elem in H as [Hin Hs]. unfold spellings. apply elem_of_list_In, in_concat. exists (o_name o :: o_aliases o).
    split; [apply (in_map (fun o => o_name o :: o_aliases o)); by apply elem_of_list_In|]. apply elem_of_list_In. destruct Hs as [<-|Hs]; [by left|by right].
  Qed.
  Lemma proper_follows os u l rest : proper os u -> follows (spellings os ++ l) (words u ++ rest).
  Proof. intros H. inversion H as [os' o w args sub Hw Hf Hb Hl Hs]; subst. cbn. split; [apply elem_of_app; left; by eapply spelt_spellings|done]. Qed.

  Definition read_well (u : written E) : Prop := forall (top : bool) os n outer rest is ws',
    clear outer os -> proper os u -> follows (spellings os ++ outer) rest -> reads top os n rest is ws' ->
    exists i, reads top os n (words u ++ rest) (i :: is) ws' /\ meaning i = ([], [meant u]).

  Lemma read_nested os n outer rest : clear outer os -> follows outer rest ->
    forall us, Forall read_well us -> Forall (proper os) us ->
    exists is, reads false os n (concat (map words us) ++ rest) is rest /\ args_of is = [] /\ trees_of is = map meant us.
  Proof.
    intros Hc Hf us. induction us as [|u us IH]; intros HF Hp; cbn [map concat app].
    - destruct rest as [|w rest]; [exists []; split; [apply reads_end|done]|]. destruct Hf as [Hin Hw].
      inversion Hc as [outer' os' Hout Hin']; subst. destruct (Hout w Hin Hw) as (H1&H2&H3).
      exists [Junk []]. split; [by apply reads_stop|done].
    - apply Forall_cons in HF as [Hu HF]. apply Forall_cons in Hp as [Hpu Hp]. destruct (IH HF Hp) as (is&Hr&Ha&Ht).
      rewrite <-app_assoc. destruct (Hu false os n outer (concat (map words us) ++ rest) is rest Hc Hpu) as (i&Hi&Hm); [|done|].
      { destruct us as [|u' us]; [|cbn [map concat]; rewrite <-app_assoc; apply proper_follows; by apply Forall_cons in Hp as [? _]].
        cbn [map concat app]. destruct rest; [done|]. destruct Hf as [? ?]. split; [by apply elem_of_app; right|done]. }
      exists (i :: is). split; [done|]. rewrite args_of_cons, trees_of_cons, Hm. cbn [fst snd app]. by rewrite Ha, Ht.
  Qed.

  Lemma all_read_well u : read_well u.
  Proof.
    induction u as [o w args sub IH] using written_forall. intros top os n outer rest is ws' Hc Hp Hf Hr.
    inversion Hp as [os' o' w' args' sub' Hw Hfi Hb Hl Hs]; subst.
    assert (exists it, below o (length args) (concat (map words sub) ++ rest) it rest /\ args_of it = [] /\ trees_of it = map meant sub) as (it&Hbl&Ha&Ht).
    { destruct (decide (o_children o = [])) as [E0|E0].
      - destruct sub as [|u sub]; [exists []; split; [by apply below_none|done]|]. apply Forall_cons in Hs as [Hu _]. rewrite E0 in Hu.
        inversion Hu as [? ? ? ? ? ? Hbad]; subst. destruct Hbad as (os1&os2&Hbad&_). by destruct os1.
      - inversion Hc as [outer' os'' Hout Hin]; subst.
        destruct (read_nested (o_children o) (length args) (spellings os ++ outer) rest) with (us := sub) as (it&H1&H2&H3); [|done|done|done|].
        + apply Hin. by apply (first_of_elem _ _ _ Hfi).
        + exists it. split; [by apply below_some|done]. }
    exists (Use o w args it).
    assert (meaning (Use o w args it) = ([], [meant (Written o w args sub)])) as Hm.
    { cbn [meaning meant]. rewrite Hb. unfold args_of in Ha. unfold trees_of in Ht. rewrite Ha, Ht, app_nil_r. done. }
    split; [|done]. cbn [words app]. rewrite <-app_assoc.
    apply (reads_use top os n o w args (concat (map words sub) ++ rest) it rest is ws'); [done|done|done|done| |].
    - by rewrite Hb.
    - rewrite Hm. cbn [fst length]. by rewrite Nat.add_0_r.
  Qed.

  Lemma read_top os us : clear [] os -> Forall (proper os) us ->
    exists is, reads true os 0 (concat (map words us)) is [] /\ trees_of is = map meant us.
  Proof.
    intros Hc Hp. induction us as [|u us IH]; [exists []; split; [apply reads_end|done]|].
    apply Forall_cons in Hp as [Hpu Hp]. destruct (IH Hp) as (is&Hr&Ht). cbn [map concat].
    destruct (all_read_well u true os 0 [] (concat (map words us)) is [] Hc Hpu) as (i&Hi&Hm); [|done|].
    { destruct us as [|u' us]; [done|]. cbn [map concat]. apply proper_follows. by apply Forall_cons in Hp as [? _]. }
    exists (i :: is). split; [done|]. rewrite trees_of_cons, Hm. cbn [snd app]. by rewrite Ht.
  Qed.

  Theorem written_invoked z os us : os <> [] -> clear [] os -> Forall (proper os) us ->
    parse_invoke (z :: concat (map words us)) os = Ok ([], Zeroth z :: concat (map calls (map meant us))).
  Proof. intros Hn Hc Hp. destruct (read_top os us Hc Hp) as (is&Hr&Ht). rewrite <-Ht. by apply invoke_reads. Qed.

  (** *** A check *)
  Fixpoint clearb (depth : nat) (outer : list text) os : bool :=
    match depth with
    | 0 => false
    | S depth =>
        forallb (fun w => match w with [] => true | _ =>
          match find_opt (fun o => named o w) os with Some _ => false | None => true end && negb (bool_decide (w = help_word)) &&
          match scan_word os w with (false, []) => true | _ => false end end) outer &&
        forallb (fun o => clearb depth (spellings os ++ outer) (o_children o)) os
    end.

  Lemma clearb_clear depth : forall outer os, clearb depth outer os = true -> clear outer os.
  Proof.
    induction depth as [|depth IH]; intros outer os H; cbn [clearb] in H.
    - done.
    - apply andb_true_iff in H as [H1 H2]. constructor.
      + intros w Hw Hne. rewrite forallb_forall in H1. apply elem_of_list_In, H1 in Hw. destruct w as [|c w]; [done|].
        apply andb_true_iff in Hw as [Hw H3]. apply andb_true_iff in Hw as [Hw Hh]. split; [|split].
        * destruct (find_opt _ os) eqn:Ef; [done|]. by apply (proj1 (find_opt_none _ _ _ (named_spelt _))).
        * by apply negb_true_iff, bool_decide_eq_false in Hh.
        * apply scan_word_false. by destruct (scan_word os _) as [[] [|]].
      + intros o Ho. apply IH. rewrite forallb_forall in H2. by apply H2, elem_of_list_In.
  Qed.
End proofs.
