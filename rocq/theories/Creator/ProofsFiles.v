(** Proofs about the texts of new files. *)
From Coq Require Import Ascii String.
From stdpp Require Import list.
From Verif.Base Require Import Outcome ListLemmas.
From Verif.Text Require Import Model Spec Proofs ProofsIndent.
From Verif.Edit Require Model Proofs.
From Verif.Creator Require Import Model Templates Spec Symbolic.
Local Open Scope res_scope.
Local Notation "⌜ s ⌝" := (list_ascii_of_string s%string).

(** ** Filling in, symbolically *)

Lemma fill_skip table k : forall l, fill k table l = fill 0 table (drop k l).
Proof. induction k as [|k IH]; intros [|c l]; try done. cbn [fill drop]. apply IH. Qed.

Lemma fill_none table w l : (forall e i, e ∈ table -> i < length w -> ~ occurs_at (fst e) (w ++ l) i) -> fill 0 table (w ++ l) = w ++ fill 0 table l.
Proof.
  induction w as [|c w IH]; intros H; [done|]. cbn [app fill].
  destruct (find _ table) as [e|] eqn:E.
  - apply find_some in E as [He Hs]. exfalso. apply (H e 0); [by apply elem_of_list_In|cbn; lia|]. apply occurs_at_0. by apply starts_with_spec in Hs.
  - f_equal. apply IH. intros e i He Hi Ho. apply (H e (S i)); [done|cbn; lia|]. by apply occurs_at_S.
Qed.

Lemma find_last_Some P l i : occurs_at P l i -> (forall j, occurs_at P l j -> j <= i) -> Edit.Model.find_last P l = Some i.
Proof.
  intros H1 H2. pose proof (Edit.Proofs.find_last_spec P l) as H. destruct (Edit.Model.find_last P l) as [k|].
  - destruct H as [H3 H4]. specialize (H2 k H3). specialize (H4 i H1). f_equal. lia.
  - destruct H. by exists i.
Qed.
Lemma find_last_None P l : ~ occurs P l -> Edit.Model.find_last P l = None.
Proof.
  intros H1. pose proof (Edit.Proofs.find_last_spec P l) as H. destruct (Edit.Model.find_last P l) as [k|]; [|done].
  destruct H1. exists k. apply H.
Qed.

Section symbolic.
  Context (F : nat -> text) (B : nat -> list text).

  Fixpoint skey (table : list (text * list piece)) (s : list piece) : answer (list piece * list piece) :=
    match table with
    | [] => No
    | (P, T) :: table' =>
        match smatch F P s with
        | Yes r => Yes (T, r)
        | No => skey table' s
        | Unknown => Unknown
        end
    end.
  Fixpoint sfill (fuel : nat) (table : list (text * list piece)) (s : list piece) : option (list piece) :=
    match fuel with
    | O => None
    | S fuel' =>
        match s with
        | [] => Some []
        | K c :: s' =>
            match skey table s with
            | Yes (T, r) => (fun o => T ++ o) <$> sfill fuel' table r
            | No => (fun o => K c :: o) <$> sfill fuel' table s'
            | Unknown => None
            end
        | V v :: s' =>
            if forallb (fun e => outside F B v (fst e) s') table then (fun o => V v :: o) <$> sfill fuel' table s' else None
        end
    end.
  Definition sinst (table : list (text * list piece)) (s : list piece) : option (list piece) :=
    if forallb (fun e => negb (bool_decide (fst e = []))) table then sfill (S (length s)) table s else None.

  Context (ρ : nat -> text).
  Hypothesis HF : forall v c, c ∈ F v -> c ∉ ρ v.
  Hypothesis HB : forall v P, P ∈ B v -> ~ occurs P (ρ v).
  Local Notation "⟦ s ⟧" := (denote ρ s).
  Definition dtable (table : list (text * list piece)) : list (text * text) := map (fun e => (fst e, ⟦snd e⟧)) table.

  Lemma skey_ok table s :
    match skey table s with
    | Yes (T, r) => exists P, find (fun e => starts_with (fst e) ⟦s⟧) (dtable table) = Some (P, ⟦T⟧) /\ ⟦s⟧ = P ++ ⟦r⟧ /\ exists T', (P, T') ∈ table
    | No => find (fun e => starts_with (fst e) ⟦s⟧) (dtable table) = None
    | Unknown => True
    end.
  Proof using All.
    induction table as [|[P T] table IH]; [done|]. cbn [skey dtable map find fst snd].
    pose proof (smatch_ok F B ρ HF HB s P) as Hm. destruct (smatch F P s) as [r| |]; [| |done].
    - exists P. rewrite (proj2 (starts_with_spec P ⟦s⟧)) by by eexists. split; [done|]. split; [done|]. exists T. left.
    - destruct (starts_with P ⟦s⟧) eqn:E; [apply starts_with_spec in E as [post E]; by destruct (Hm post)|].
      fold (dtable table). destruct (skey table s) as [[T' r]| |]; [|done|done]. destruct IH as (P' & H1 & H2 & T'' & H3).
      exists P'. split; [done|]. split; [done|]. exists T''. by right.
  Qed.

  Lemma sfill_ok table : Forall (fun e : text * list piece => fst e <> []) table ->
    forall fuel s o, sfill fuel table s = Some o -> fill 0 (dtable table) ⟦s⟧ = ⟦o⟧.
  Proof using All.
    intros Hne. induction fuel as [|fuel IH]; intros s o; [done|]. cbn [sfill]. destruct s as [|[c|v] s].
    - by intros [= <-].
    - pose proof (skey_ok table (K c :: s)) as Hk. destruct (skey table (K c :: s)) as [[T r]| |]; [| |done].
      + destruct (sfill fuel table r) as [o'|] eqn:E; [|done]. intros [= <-]. apply IH in E.
        destruct Hk as (P & Hf & Hs & T' & HP). cbn [denote meant app] in Hf, Hs |- *. cbn [fill]. rewrite Hf, denote_app, fill_skip. f_equal.
        rewrite <- E. f_equal. rewrite Forall_forall in Hne. specialize (Hne _ HP). destruct P as [|p P]; [done|].
        cbn [app] in Hs. injection Hs as -> Hs. rewrite Hs. cbn. by rewrite Nat.sub_0_r, drop_app.
      + destruct (sfill fuel table s) as [o'|] eqn:E; [|done]. intros [= <-]. apply IH in E.
        cbn [denote meant app] in Hk |- *. cbn [fill]. rewrite Hk. by rewrite E.
    - destruct (forallb _ table) eqn:Ho; [|done]. destruct (sfill fuel table s) as [o'|] eqn:E; [|done]. intros [= <-]. apply IH in E.
      cbn [denote meant]. rewrite fill_none; [by rewrite E|]. intros e i He Hi. rewrite forallb_forall in Ho.
      apply elem_of_list_fmap in He as ([P T] & -> & He). cbn [fst]. rewrite Forall_forall in Hne. specialize (Hne _ He).
      specialize (Ho _ (proj1 (elem_of_list_In _ _) He)). by apply (outside_ok F B ρ HF HB).
  Qed.
  Lemma sinst_ok table s o : sinst table s = Some o -> instantiate (dtable table) ⟦s⟧ = ⟦o⟧.
  Proof using All.
    unfold sinst. destruct (forallb _ table) eqn:E; [|done]. apply sfill_ok. rewrite forallb_forall in E. apply Forall_forall.
    intros e He. specialize (E e (proj1 (elem_of_list_In _ _) He)). by apply negb_true_iff, bool_decide_eq_false in E.
  Qed.

  (** ** The parts of the pipelines *)

  Definition schoose (regular : bool) (s : list piece) : option (list piece) :=
    match sfirst F B ⌜"$Regular"⌝ s with
    | No => Some s
    | Yes (b, a) =>
        match sfirst F B ⌜"$Move"⌝ a with
        | Yes (b2, a2) =>
            match sfirst F B (⌜"$"⌝ ++ [nl]) a2 with
            | Yes (b3, a3) => Some (b ++ (if regular then b2 else b3) ++ a3)
            | _ => None
            end
        | _ => None
        end
    | Unknown => None
    end.
  Lemma schoose_ok regular s o : schoose regular s = Some o -> choose_part regular ⟦s⟧ = ⟦o⟧.
  Proof using All.
    unfold schoose, choose_part. pose proof (sfirst_ok F B ρ HF HB ⌜"$Regular"⌝ ltac:(done) s) as H1.
    destruct (sfirst F B ⌜"$Regular"⌝ s) as [[b a]| |]; [| |done]; [|rewrite (proj2 (find_first_None _ _) H1); by intros [= <-]].
    destruct H1 as [E1 H1]. rewrite (proj2 (find_first_Some _ _ _) H1).
    pose proof (sfirst_ok F B ρ HF HB ⌜"$Move"⌝ ltac:(done) a) as H2. destruct (sfirst F B ⌜"$Move"⌝ a) as [[b2 a2]| |]; [|done|done].
    destruct H2 as [E2 H2].
    pose proof (sfirst_ok F B ρ HF HB (⌜"$"⌝ ++ [nl]) ltac:(done) a2) as H3. destruct (sfirst F B (⌜"$"⌝ ++ [nl]) a2) as [[b3 a3]| |]; [|done|done].
    destruct H3 as [E3 H3]. intros [= <-].
    assert (⟦s⟧ = (⟦b⟧ ++ ⌜"$Regular"⌝) ++ ⟦a⟧) as Es by by rewrite E1, <- (assoc_L (++)).
    assert (find_from ⟦s⟧ ⌜"$Move"⌝ (length ⟦b⟧ + 8) = Some (length ⟦b⟧ + 8 + length ⟦b2⟧)) as F2.
    { rewrite Es. replace (length ⟦b⟧ + 8) with (length (⟦b⟧ ++ ⌜"$Regular"⌝)) by (rewrite app_length; done).
      rewrite E2. rewrite E2 in H2. exact (find_from_app_Some _ _ _ _ H2). }
    rewrite F2.
    assert (⟦s⟧ = ((⟦b⟧ ++ ⌜"$Regular"⌝) ++ ⟦b2⟧ ++ ⌜"$Move"⌝) ++ ⟦a2⟧) as Es2 by by rewrite Es, E2, <- !(assoc_L (++)).
    assert (find_from ⟦s⟧ (⌜"$"⌝ ++ [nl]) (length ⟦b⟧ + 8 + length ⟦b2⟧ + 5) = Some (length ⟦b⟧ + 8 + length ⟦b2⟧ + 5 + length ⟦b3⟧)) as F3.
    { rewrite Es2. replace (length ⟦b⟧ + 8 + length ⟦b2⟧ + 5) with (length ((⟦b⟧ ++ ⌜"$Regular"⌝) ++ ⟦b2⟧ ++ ⌜"$Move"⌝)) by (rewrite !app_length; cbn [length list_ascii_of_string]; lia).
      rewrite E3. rewrite E3 in H3. exact (find_from_app_Some _ _ _ _ H3). }
    rewrite F3. clear H1 H2 H3 F2 F3.
    assert (⟦s⟧ = ⟦b⟧ ++ ⌜"$Regular"⌝ ++ ⟦b2⟧ ++ ⌜"$Move"⌝ ++ ⟦b3⟧ ++ (⌜"$"⌝ ++ [nl]) ++ ⟦a3⟧) as Ef by by rewrite E1, E2, E3.
    clear Es Es2 E1 E2 E3. rewrite Ef, !denote_app. destruct regular.
    - replace (⟦b⟧ ++ ⌜"$Regular"⌝ ++ ⟦b2⟧ ++ ⌜"$Move"⌝ ++ ⟦b3⟧ ++ (⌜"$"⌝ ++ [nl]) ++ ⟦a3⟧)
        with ((⟦b⟧ ++ ⌜"$Regular"⌝ ++ ⟦b2⟧) ++ (⌜"$Move"⌝ ++ ⟦b3⟧ ++ (⌜"$"⌝ ++ [nl])) ++ ⟦a3⟧) by by rewrite <- !(assoc_L (++)).
      replace (length ⟦b⟧ + 8 + length ⟦b2⟧) with (length (⟦b⟧ ++ ⌜"$Regular"⌝ ++ ⟦b2⟧)) by (rewrite !app_length; cbn [length list_ascii_of_string]; lia).
      replace (length (⟦b⟧ ++ ⌜"$Regular"⌝ ++ ⟦b2⟧) + 5 + length ⟦b3⟧ + 2 - length (⟦b⟧ ++ ⌜"$Regular"⌝ ++ ⟦b2⟧))
        with (length (⌜"$Move"⌝ ++ ⟦b3⟧ ++ (⌜"$"⌝ ++ [nl]))) by (rewrite !app_length; cbn [length list_ascii_of_string]; lia).
      rewrite splice_app. cbn [app]. rewrite <- !(assoc_L (++)). exact (splice_app ⟦b⟧ ⌜"$Regular"⌝ _ []).
    - replace (⟦b⟧ ++ ⌜"$Regular"⌝ ++ ⟦b2⟧ ++ ⌜"$Move"⌝ ++ ⟦b3⟧ ++ (⌜"$"⌝ ++ [nl]) ++ ⟦a3⟧)
        with ((⟦b⟧ ++ ⌜"$Regular"⌝ ++ ⟦b2⟧ ++ ⌜"$Move"⌝ ++ ⟦b3⟧) ++ (⌜"$"⌝ ++ [nl]) ++ ⟦a3⟧) by by rewrite <- !(assoc_L (++)).
      replace (length ⟦b⟧ + 8 + length ⟦b2⟧ + 5 + length ⟦b3⟧) with (length (⟦b⟧ ++ ⌜"$Regular"⌝ ++ ⟦b2⟧ ++ ⌜"$Move"⌝ ++ ⟦b3⟧)) by (rewrite !app_length; cbn [length list_ascii_of_string]; lia).
      rewrite (splice_app _ (⌜"$"⌝ ++ [nl])). cbn [app].
      replace ((⟦b⟧ ++ ⌜"$Regular"⌝ ++ ⟦b2⟧ ++ ⌜"$Move"⌝ ++ ⟦b3⟧) ++ ⟦a3⟧)
        with (⟦b⟧ ++ (⌜"$Regular"⌝ ++ ⟦b2⟧ ++ ⌜"$Move"⌝) ++ ⟦b3⟧ ++ ⟦a3⟧) by by rewrite <- !(assoc_L (++)).
      replace (length ⟦b⟧ + 8 + length ⟦b2⟧ + 5 - length ⟦b⟧) with (length (⌜"$Regular"⌝ ++ ⟦b2⟧ ++ ⌜"$Move"⌝)) by (rewrite !app_length; cbn [length list_ascii_of_string]; lia).
      by rewrite splice_app.
  Qed.

  Definition sdrop_tester (s : list piece) : option (list piece) :=
    match slast F B ⌜"template<?>"⌝ s with
    | No => Some s
    | Yes (b, a) => match slast F B ⌜"};"⌝ a with Yes (_, d) => Some (b ++ d) | _ => None end
    | Unknown => None
    end.

  Lemma sdrop_tester_ok s o : sdrop_tester s = Some o -> equivalence_part [] ⟦s⟧ = Ok ⟦o⟧.
  Proof using All.
    unfold sdrop_tester, equivalence_part. pose proof (slast_ok F B ρ HF HB ⌜"template<?>"⌝ ltac:(done) s) as H1.
    destruct (slast F B ⌜"template<?>"⌝ s) as [[b a]| |]; [| |done]; [|rewrite (find_last_None _ _ H1); by intros [= <-]].
    destruct H1 as [E1 H1]. rewrite (find_last_Some ⌜"template<?>"⌝ ⟦s⟧ (length ⟦b⟧)); [|by exists ⟦b⟧, ⟦a⟧|done].
    pose proof (slast_ok F B ρ HF HB ⌜"};"⌝ ltac:(done) a) as H2. destruct (slast F B ⌜"};"⌝ a) as [[b2 d]| |]; [|done|done].
    destruct H2 as [E2 H2]. intros [= <-].
    assert (⟦s⟧ = (⟦b⟧ ++ ⌜"template<?>"⌝) ++ ⟦a⟧) as Es by by rewrite E1, <- (assoc_L (++)).
    rewrite (find_last_Some ⌜"};"⌝ ⟦s⟧ (length (⟦b⟧ ++ ⌜"template<?>"⌝) + length ⟦b2⟧)).
    - rewrite app_length. cbn [length list_ascii_of_string]. rewrite (proj2 (Nat.leb_le _ _)) by lia. f_equal. rewrite denote_app, E1, E2.
      replace (⟦b⟧ ++ ⌜"template<?>"⌝ ++ ⟦b2⟧ ++ ⌜"};"⌝ ++ ⟦d⟧) with (⟦b⟧ ++ (⌜"template<?>"⌝ ++ ⟦b2⟧ ++ ⌜"};"⌝) ++ ⟦d⟧) by by rewrite <- !(assoc_L (++)).
      match goal with |- splice _ _ ?n _ = _ => replace n with (length (⌜"template<?>"⌝ ++ ⟦b2⟧ ++ ⌜"};"⌝)) by (rewrite !app_length; cbn [length list_ascii_of_string]; lia) end.
      by rewrite splice_app.
    - rewrite Es. apply occurs_at_app. rewrite E2. exists ⟦b2⟧, ⟦d⟧. done.
    - intros j Hj. destruct (decide (j < length (⟦b⟧ ++ ⌜"template<?>"⌝))) as [Hlt|Hge]; [lia|]. rewrite Es in Hj.
      replace j with (length (⟦b⟧ ++ ⌜"template<?>"⌝) + (j - length (⟦b⟧ ++ ⌜"template<?>"⌝))) in Hj by lia.
      apply (proj1 (occurs_at_app _ _ _ _)) in Hj. specialize (H2 _ Hj). lia.
  Qed.
End symbolic.
